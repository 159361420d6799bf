(** Proofs about holidays and business days. *)
From Verif Require Import Base PyDate PyDateFacts Holidays Scheduler LoopFacts.
Open Scope Z_scope.
Ltac Zify.zify_post_hook ::= Z.div_mod_to_equations.

(** ---- weekdays ---- *)
Lemma next_weekday_spec d w : 0 <= w <= 6 -> date_ok d ->
  match get_next_weekday d w with
  | Ok x => date_ok x /\ d <= x <= d + 6 /\ weekday x = w /\ (forall y, d <= y < x -> weekday y <> w)
  | Err e => e = OverflowError /\ forall y, d <= y <= max_date -> weekday y <> w
  end.
Proof.
  intros Hw Hd. unfold get_next_weekday. destruct (weekday d =? w) eqn:E.
  - repeat split; try lia; unfold date_ok in *; lia.
  - destruct (add_days d ((w - weekday d) mod 7)) as [x|e] eqn:A.
    + apply add_days_ok in A. destruct A as [-> A]. unfold weekday in *. repeat split; auto; try (unfold date_ok in *; lia); lia.
    + apply add_days_err in A. destruct A as [-> A]. split; auto. unfold date_ok, weekday in *. intros; lia.
Qed.

Lemma adjustment_spec d : date_ok d ->
  match us_federal_holiday_adjustment d with
  | Ok x => date_ok x /\ 0 <= weekday x <= 4 /\ d - 1 <= x <= d + 1 /\
            x = (if weekday d =? 5 then d - 1 else if weekday d =? 6 then d + 1 else d)
  | Err e => e = OverflowError /\ ((weekday d = 5 /\ d = min_date) \/ (weekday d = 6 /\ d = max_date))
  end.
Proof.
  intros Hd. unfold us_federal_holiday_adjustment, SATURDAY, SUNDAY.
  destruct (weekday d =? 5) eqn:E5; [|destruct (weekday d =? 6) eqn:E6].
  - destruct (add_days d (-1)) as [x|e] eqn:A.
    + apply add_days_ok in A. destruct A as [-> A]. cbv iota. unfold weekday in *. repeat split; auto; unfold date_ok in *; lia.
    + apply add_days_err in A. destruct A as [-> A]. unfold date_ok in *. split; auto. lia.
  - destruct (add_days d 1) as [x|e] eqn:A.
    + apply add_days_ok in A. destruct A as [-> A]. cbv iota. unfold weekday in *. repeat split; auto; unfold date_ok in *; lia.
    + apply add_days_err in A. destruct A as [-> A]. unfold date_ok in *. split; auto. lia.
  - pose proof (weekday_range d). cbv iota. repeat split; try lia; unfold date_ok in *; lia.
Qed.

(** ---- holiday generation ---- *)
(** The date of one calendar entry in one year. *)
Definition holiday_date (h : Holiday) (y : Z) (x : date) : Prop :=
  exists d, mk_date y (h_month h) (h_day h) = Ok d /\ h_adjust h d = Ok x.

Lemma gen_one_spec n a b cal l : generate_holiday_dates n a b cal = Ok l ->
  exists h, lookup n cal = Some h /\ forall x, In x l <-> exists y, a <= y <= b /\ holiday_date h y x.
Proof.
  unfold generate_holiday_dates. destruct (lookup n cal) as [h|]; [|discriminate].
  intros H. exists h; split; auto. intros x. apply mapM_Ok in H.
  assert (EQ : forall y z, (do d <- mk_date y (h_month h) (h_day h); h_adjust h d) = Ok z <-> holiday_date h y z).
  { intros y z. unfold holiday_date. destruct (mk_date _ _ _) as [d|e]; cbn [bind].
    - split; [eauto|]. intros (d' & [= <-] & E); auto.
    - split; [discriminate|]. intros (d' & E & _); discriminate. }
  split.
  - intros I. destruct (Forall2_In_r _ _ _ _ H I) as (y & Iy & E). apply EQ in E. exists y. split; auto.
    apply range_incl_In in Iy; auto.
  - intros (y & Hy & E). apply EQ in E. destruct (Forall2_In_l _ _ _ y H) as (x' & I & E').
    + apply range_incl_In; auto.
    + congruence.
Qed.

Lemma gen_unknown n a b cal : lookup n cal = None -> generate_holiday_dates n a b cal = Err KeyError.
Proof. unfold generate_holiday_dates. intros ->. reflexivity. Qed.

Lemma lookup_In n (cal : calendar) h : lookup n cal = Some h -> In (n, h) cal.
Proof.
  induction cal as [|[k h'] cal IH]; cbn [lookup]; [discriminate|].
  destruct (String.eqb n k) eqn:E.
  - intros [= ->]. apply String.eqb_eq in E. subst. left; auto.
  - intros H; right; auto.
Qed.

Lemma NoDup_lookup n (cal : calendar) h : NoDup (List.map fst cal) -> In (n, h) cal -> lookup n cal = Some h.
Proof.
  induction cal as [|[k h'] cal IH]; cbn [List.map fst lookup In]; [tauto|].
  intros ND [E|I].
  - injection E as -> ->. rewrite String.eqb_refl. reflexivity.
  - inversion ND as [|? ? NI ND']; subst. destruct (String.eqb n k) eqn:E.
    + apply String.eqb_eq in E. subst. exfalso. apply NI. apply in_map_iff. exists (k, h); auto.
    + apply IH; auto.
Qed.

Lemma gen_all_spec a b cal l : NoDup (List.map fst cal) -> generate_all_holidays a b cal = Ok l ->
  forall x, In x l <-> exists n h y, In (n, h) cal /\ a <= y <= b /\ holiday_date h y x.
Proof.
  intros ND. unfold generate_all_holidays.
  destruct (mapM _ (List.map fst cal)) as [ls|] eqn:E; cbn [bind]; [|discriminate]. intros [= <-] x.
  apply mapM_Ok in E. rewrite in_concat. split.
  - intros (l' & I & Ix). destruct (Forall2_In_r _ _ _ _ E I) as (n & In_ & G).
    destruct (gen_one_spec _ _ _ _ _ G) as (h & L & S). apply S in Ix. destruct Ix as (y & Hy & D).
    exists n, h, y. split; auto. apply lookup_In; auto.
  - intros (n & h & y & I & Hy & D).
    assert (In n (List.map fst cal)) as In_ by (apply in_map_iff; exists (n, h); auto).
    destruct (Forall2_In_l _ _ _ _ E In_) as (l' & I' & G).
    exists l'; split; auto. destruct (gen_one_spec _ _ _ _ _ G) as (h' & L & S).
    rewrite (NoDup_lookup n cal h ND I) in L. injection L as <-. apply S. eauto.
Qed.

(** ---- business days ---- *)
Definition isbd (cal : calendar) (d : date) : Prop := date_ok d /\ is_business_day d cal = Ok true.
Definition notbd (cal : calendar) (d : date) : Prop := is_business_day d cal = Ok false.

Lemma isbd_spec cal d : NoDup (List.map fst cal) -> forall b, is_business_day d cal = Ok b ->
  (b = true <-> 0 <= weekday d <= 4 /\ ~ exists n h, In (n, h) cal /\ holiday_date h (year d) d).
Proof.
  intros ND b. unfold is_business_day. destruct (generate_all_holidays _ _ _) as [hs|] eqn:E; cbn [bind]; [|discriminate].
  intros [= <-]. pose proof (gen_all_spec _ _ _ _ ND E d) as S. unfold SATURDAY, SUNDAY. pose proof (weekday_range d).
  assert (X : existsb (Z.eqb d) hs = true <-> exists n h, In (n, h) cal /\ holiday_date h (year d) d).
  { rewrite existsb_exists. split.
    - intros (x & I & Ex). assert (d = x) by lia. subst x. apply S in I. destruct I as (n & h & y & I & Hy & D).
      assert (y = year d) by lia. subst y. eauto.
    - intros (n & h & I & D). exists d. split; [|lia]. apply S. exists n, h, (year d). repeat split; auto; lia. }
  rewrite <- X. destruct (existsb (Z.eqb d) hs); cbn [negb andb]; split; try discriminate; try tauto; try lia.
Qed.

(** Results of the two searches. *)
Definition first_on_after (cal : calendar) (d x : date) : Prop :=
  d <= x /\ isbd cal x /\ forall y, d <= y < x -> notbd cal y.
Definition last_on_before (cal : calendar) (d x : date) : Prop :=
  x <= d /\ isbd cal x /\ forall y, x < y <= d -> notbd cal y.

Lemma seek_up cal d : date_ok d ->
  match seek_business 1 cal d with
  | Ok x => first_on_after cal d x
  | Err e => exists x, d <= x <= max_date /\ (forall y, d <= y < x -> notbd cal y) /\
       (is_business_day x cal = Err e \/ (e = OverflowError /\ notbd cal x /\ x = max_date))
  end.
Proof.
  intros Hd. unfold seek_business.
  set (R := fun r : res date => match r with
     | Ok x => first_on_after cal d x
     | Err e => exists x, d <= x <= max_date /\ (forall y, d <= y < x -> notbd cal y) /\
       (is_business_day x cal = Err e \/ (e = OverflowError /\ notbd cal x /\ x = max_date)) end).
  apply (loop_rule (step_business 1 cal) (fun a => d <= a <= max_date /\ forall y, d <= y < a -> notbd cal y) R (fun a => max_date - a)).
  - intros a [B N]. unfold step_business. destruct (is_business_day a cal) as [[|]|e] eqn:E.
    + unfold R, first_on_after, isbd. repeat split; auto; unfold date_ok in *; lia.
    + destruct (add_days a 1) as [a'|e] eqn:A.
      * apply add_days_ok in A. destruct A as [-> A]. unfold date_ok in A. repeat split; try lia.
        intros y Hy. destruct (Z.eq_dec y a) as [->|]; [exact E|]. apply N; lia.
      * apply add_days_err in A. destruct A as [-> A]. unfold R. exists a. repeat split; auto; try lia.
        right. repeat split; auto. unfold date_ok in *. lia.
    + unfold R. exists a. repeat split; auto; lia.
  - intros a [B _]. lia.
  - unfold date_ok in Hd. split; [lia|]. intros; lia.
  - unfold date_ok, max_date, date_fuel, min_date in *. lia.
Qed.

Lemma seek_down cal d : date_ok d ->
  match seek_business (-1) cal d with
  | Ok x => last_on_before cal d x
  | Err e => exists x, min_date <= x <= d /\ (forall y, x < y <= d -> notbd cal y) /\
       (is_business_day x cal = Err e \/ (e = OverflowError /\ notbd cal x /\ x = min_date))
  end.
Proof.
  intros Hd. unfold seek_business.
  set (R := fun r : res date => match r with
     | Ok x => last_on_before cal d x
     | Err e => exists x, min_date <= x <= d /\ (forall y, x < y <= d -> notbd cal y) /\
       (is_business_day x cal = Err e \/ (e = OverflowError /\ notbd cal x /\ x = min_date)) end).
  apply (loop_rule (step_business (-1) cal) (fun a => min_date <= a <= d /\ forall y, a < y <= d -> notbd cal y) R (fun a => a)).
  - intros a [B N]. unfold step_business. destruct (is_business_day a cal) as [[|]|e] eqn:E.
    + unfold R, last_on_before, isbd. repeat split; auto; unfold date_ok in *; lia.
    + destruct (add_days a (-1)) as [a'|e] eqn:A.
      * apply add_days_ok in A. destruct A as [-> A]. unfold date_ok in A. repeat split; try lia.
        intros y Hy. destruct (Z.eq_dec y a) as [->|]; [exact E|]. apply N; lia.
      * apply add_days_err in A. destruct A as [-> A]. unfold R. exists a. repeat split; auto; try lia.
        right. repeat split; auto. unfold date_ok in *. lia.
    + unfold R. exists a. repeat split; auto; lia.
  - unfold min_date. intros a [B _]. lia.
  - unfold date_ok in Hd. split; [lia|]. intros; lia.
  - unfold date_ok, max_date, date_fuel, min_date in *. lia.
Qed.

Lemma bd_excl cal d : isbd cal d -> notbd cal d -> False.
Proof. unfold isbd, notbd. intros [_ A] B. congruence. Qed.

Lemma first_unique cal d x x' : first_on_after cal d x -> first_on_after cal d x' -> x = x'.
Proof.
  intros (L & B & N) (L' & B' & N'). destruct (Z.lt_trichotomy x x') as [H|[H|H]]; auto; exfalso.
  - apply (bd_excl cal x); auto. 
  - apply (bd_excl cal x'); auto.
Qed.
Lemma last_unique cal d x x' : last_on_before cal d x -> last_on_before cal d x' -> x = x'.
Proof.
  intros (L & B & N) (L' & B' & N'). destruct (Z.lt_trichotomy x x') as [H|[H|H]]; auto; exfalso.
  - apply (bd_excl cal x'); auto. 
  - apply (bd_excl cal x); auto.
Qed.

(** A search succeeds exactly when its specification has a witness. *)
Lemma seek_up_iff cal d x : date_ok d -> (seek_business 1 cal d = Ok x <-> first_on_after cal d x).
Proof.
  intros Hd. pose proof (seek_up cal d Hd) as S. destruct (seek_business 1 cal d) as [z|e].
  - split; [intros [= <-]; auto|]. intros F. f_equal. eapply first_unique; eauto.
  - split; [discriminate|]. intros (L & B & N). exfalso. destruct S as (y & Hy & Ny & C).
    destruct (Z.lt_trichotomy x y) as [H|[H|H]].
    + apply (bd_excl cal x); auto.
    + subst y. destruct B as [_ B]. destruct C as [C|(_ & C & _)]; unfold notbd in C; congruence.
    + specialize (N y ltac:(lia)). unfold notbd in N. destruct C as [C|(_ & _ & C)]; [congruence|].
      destruct B as [B _]. unfold date_ok in B. lia.
Qed.
Lemma seek_down_iff cal d x : date_ok d -> (seek_business (-1) cal d = Ok x <-> last_on_before cal d x).
Proof.
  intros Hd. pose proof (seek_down cal d Hd) as S. destruct (seek_business (-1) cal d) as [z|e].
  - split; [intros [= <-]; auto|]. intros F. f_equal. eapply last_unique; eauto.
  - split; [discriminate|]. intros (L & B & N). exfalso. destruct S as (y & Hy & Ny & C).
    destruct (Z.lt_trichotomy x y) as [H|[H|H]].
    + specialize (N y ltac:(lia)). unfold notbd in N. destruct C as [C|(_ & _ & C)]; [congruence|].
      destruct B as [B _]. unfold date_ok in B. lia.
    + subst y. destruct B as [_ B]. destruct C as [C|(_ & C & _)]; unfold notbd in C; congruence.
    + apply (bd_excl cal x); auto.
Qed.

Lemma seek_self cal d : isbd cal d -> seek_business 1 cal d = Ok d.
Proof. intros H. apply seek_up_iff; [apply H|]. split; [lia|]. split; auto. intros; lia. Qed.

Lemma add0 d cal : add_business_days d 0 cal = seek_business 1 cal d.
Proof. unfold add_business_days. cbn. destruct (seek_business 1 cal d); reflexivity. Qed.

(** Fuel never runs out (for calendars whose holiday rules themselves do not model it). *)
Lemma seek_fuel cal d : date_ok d -> (forall y, is_business_day y cal <> Err OutOfFuel) ->
  seek_business 1 cal d <> Err OutOfFuel /\ seek_business (-1) cal d <> Err OutOfFuel.
Proof.
  intros Hd H. pose proof (seek_up cal d Hd) as U. pose proof (seek_down cal d Hd) as D. split; intros E.
  - rewrite E in U. destruct U as (x & _ & _ & [C|(C & _)]); [eapply H; eauto|discriminate].
  - rewrite E in D. destruct D as (x & _ & _ & [C|(C & _)]); [eapply H; eauto|discriminate].
Qed.

(** Monotonicity of T+0. *)
Lemma first_mono cal d d' x x' : d <= d' -> first_on_after cal d x -> first_on_after cal d' x' -> x <= x'.
Proof.
  intros H (L & B & N) (L' & B' & N'). destruct (Z_le_gt_dec x x'); auto. exfalso.
  apply (bd_excl cal x'); auto. apply N. lia.
Qed.
Lemma last_mono cal d d' x x' : d <= d' -> last_on_before cal d x -> last_on_before cal d' x' -> x <= x'.
Proof.
  intros H (L & B & N) (L' & B' & N'). destruct (Z_le_gt_dec x x'); auto. exfalso.
  apply (bd_excl cal x); auto. apply N'. lia.
Qed.

(** ---- single steps ---- *)
Definition next_bd (cal : calendar) (d x : date) : Prop := d < x /\ isbd cal x /\ forall y, d < y < x -> notbd cal y.
Definition prev_bd (cal : calendar) (d x : date) : Prop := x < d /\ isbd cal x /\ forall y, x < y < d -> notbd cal y.

Lemma next_prev cal d x : isbd cal d -> isbd cal x -> (next_bd cal d x <-> prev_bd cal x d).
Proof. intros A B. unfold next_bd, prev_bd. split; intros (L & _ & N); repeat split; auto; apply A || apply B. Qed.

Lemma add_single_iff cal d x : date_ok d -> (add_single_business_day d cal = Ok x <-> isbd cal d /\ next_bd cal d x).
Proof.
  intros Hd. unfold add_single_business_day. destruct (is_business_day d cal) as [[|]|e] eqn:E; cbn [bind negb].
  - destruct (add_days d 1) as [d1|e1] eqn:A; cbn [bind].
    + apply add_days_ok in A. destruct A as [-> A]. rewrite seek_up_iff by auto.
      unfold first_on_after, next_bd, isbd. split.
      * intros (L & B & N). repeat split; auto; try lia; try apply B; try (unfold date_ok in *; lia). intros y Hy. apply N. lia.
      * intros (_ & L & B & N). repeat split; try lia; try apply B. intros y Hy. apply N. lia.
    + apply add_days_err in A. split; [discriminate|]. intros (_ & L & [B _] & _). unfold date_ok in *. lia.
  - split; [discriminate|]. intros ([_ B] & _). congruence.
  - split; [discriminate|]. intros ([_ B] & _). congruence.
Qed.

Lemma add_single_rejects cal d : is_business_day d cal = Ok false -> add_single_business_day d cal = Err ValueError.
Proof. unfold add_single_business_day. intros ->. reflexivity. Qed.

Lemma sub_single_bd cal d x : isbd cal d -> (subtract_single_business_day d cal = Ok x <-> prev_bd cal d x).
Proof.
  intros [Hd E]. unfold subtract_single_business_day. rewrite E. cbn [bind negb].
  destruct (add_days d (-1)) as [d1|e1] eqn:A; cbn [bind].
  - apply add_days_ok in A. destruct A as [-> A]. rewrite seek_down_iff by auto.
    unfold last_on_before, prev_bd. split; intros (L & B & N); repeat split; try lia; try apply B; intros y Hy; apply N; lia.
  - apply add_days_err in A. split; [discriminate|]. intros (L & [B _] & _). unfold date_ok in *. lia.
Qed.

Lemma sub_single_nbd cal d x : date_ok d -> notbd cal d -> subtract_single_business_day d cal = Ok x -> prev_bd cal d x.
Proof.
  intros Hd E. unfold subtract_single_business_day. unfold notbd in E. rewrite E. cbn [bind negb].
  destruct (seek_business 1 cal d) as [d0|] eqn:S; cbn [bind]; [|discriminate].
  apply seek_up_iff in S; auto. destruct S as (L & B & N).
  destruct (add_days d0 (-1)) as [d1|e1] eqn:A; cbn [bind]; [|discriminate].
  apply add_days_ok in A. destruct A as [-> A]. rewrite seek_down_iff by auto.
  intros (L' & B' & N'). unfold prev_bd. repeat split; auto; try apply B'.
  - destruct (Z_lt_ge_dec x d); auto. exfalso. apply (bd_excl cal x); auto. apply N. lia.
  - intros y Hy. apply N'. assert (d0 <> d) by (intros ->; exact (bd_excl cal d B E)). lia.
Qed.

(** ---- n steps ---- *)
(** [steps cal n d x]: x is reached from d by n next-business-day steps. *)
Fixpoint up_steps (cal : calendar) (n : nat) (d x : date) : Prop :=
  match n with O => d = x | S n => exists m, next_bd cal d m /\ up_steps cal n m x end.
Fixpoint down_steps (cal : calendar) (n : nat) (d x : date) : Prop :=
  match n with O => d = x | S n => exists m, prev_bd cal d m /\ down_steps cal n m x end.

Lemma iter_up cal n : forall d x, isbd cal d -> (iterM n (fun d => add_single_business_day d cal) d = Ok x <-> up_steps cal n d x).
Proof.
  induction n as [|n IH]; intros d x B; cbn [iterM up_steps].
  - split; [intros [= ->]|intros ->]; auto.
  - destruct (add_single_business_day d cal) as [m|e] eqn:E; cbn [bind].
    + apply add_single_iff in E; [|apply B]. destruct E as [_ E]. rewrite IH by apply E. split.
      * intros H. exists m; auto.
      * intros (m' & N & H). assert (m' = m) as ->; auto.
        destruct E as (L1 & B1 & N1). destruct N as (L2 & B2 & N2).
        destruct (Z.lt_trichotomy m m') as [T|[T|T]]; auto; exfalso; [apply (bd_excl cal m)|apply (bd_excl cal m')]; auto.
    + split; [discriminate|]. intros (m & N & _). assert (add_single_business_day d cal = Ok m) as E2; [|congruence].
      apply add_single_iff; auto. apply B.
Qed.

Lemma iter_down cal n : forall d x, isbd cal d -> (iterM n (fun d => subtract_single_business_day d cal) d = Ok x <-> down_steps cal n d x).
Proof.
  induction n as [|n IH]; intros d x B; cbn [iterM down_steps].
  - split; [intros [= ->]|intros ->]; auto.
  - destruct (subtract_single_business_day d cal) as [m|e] eqn:E; cbn [bind].
    + apply sub_single_bd in E; auto. rewrite IH by apply E. split.
      * intros H. exists m; auto.
      * intros (m' & N & H). assert (m' = m) as ->; auto.
        destruct E as (L1 & B1 & N1). destruct N as (L2 & B2 & N2).
        destruct (Z.lt_trichotomy m m') as [T|[T|T]]; auto; exfalso; [apply (bd_excl cal m')|apply (bd_excl cal m)]; auto.
    + split; [discriminate|]. intros (m & N & _). assert (subtract_single_business_day d cal = Ok m) as E2; [|congruence].
      apply sub_single_bd; auto.
Qed.

Lemma up_steps_isbd cal n : forall d x, isbd cal d -> up_steps cal n d x -> isbd cal x.
Proof. induction n as [|n IH]; cbn; intros d x B; [intros <-; auto|]. intros (m & N & H). apply (IH m); auto. apply N. Qed.
Lemma down_steps_isbd cal n : forall d x, isbd cal d -> down_steps cal n d x -> isbd cal x.
Proof. induction n as [|n IH]; cbn; intros d x B; [intros <-; auto|]. intros (m & N & H). apply (IH m); auto. apply N. Qed.

Lemma up_steps_app cal m n d x : up_steps cal (m + n) d x <-> exists y, up_steps cal m d y /\ up_steps cal n y x.
Proof.
  revert d; induction m as [|m IH]; intros d; cbn [Nat.add up_steps].
  - split; [intros H; exists d; auto|intros (y & -> & H); auto].
  - split.
    + intros (z & N & H). apply IH in H. destruct H as (y & A & B). eauto.
    + intros (y & (z & N & A) & B). exists z; split; auto. apply IH. eauto.
Qed.
Lemma down_steps_app cal m n d x : down_steps cal (m + n) d x <-> exists y, down_steps cal m d y /\ down_steps cal n y x.
Proof.
  revert d; induction m as [|m IH]; intros d; cbn [Nat.add down_steps].
  - split; [intros H; exists d; auto|intros (y & -> & H); auto].
  - split.
    + intros (z & N & H). apply IH in H. destruct H as (y & A & B). eauto.
    + intros (y & (z & N & A) & B). exists z; split; auto. apply IH. eauto.
Qed.

Lemma up_down cal n : forall d x, isbd cal d -> isbd cal x -> (up_steps cal n d x <-> down_steps cal n x d).
Proof.
  induction n as [|n IH]; intros d x Bd Bx; [cbn; split; intros; subst; auto|].
  change (S n) with (1 + n)%nat at 1. replace (S n) with (n + 1)%nat by lia.
  rewrite up_steps_app, down_steps_app. cbn [up_steps down_steps]. split.
  - intros (y & (m & N & ->) & H). assert (isbd cal y) by apply N. exists y. split; [apply IH; auto|].
    exists d. split; auto. apply next_prev; auto.
  - intros (y & H & (m & N & ->)). assert (isbd cal y) by (eapply down_steps_isbd; eauto). exists y. split; [|apply IH; auto].
    exists y; split; auto. apply next_prev; auto.
Qed.

(** counting *)
Definition business_in (cal : calendar) (a b : date) : list date :=
  filter (fun y => match is_business_day y cal with Ok true => true | _ => false end)
         (List.map (fun i => a + 1 + Z.of_nat i) (seq 0 (Z.to_nat (b - a)))).

Lemma business_in_In cal a b y : In y (business_in cal a b) <-> a < y <= b /\ is_business_day y cal = Ok true.
Proof.
  unfold business_in. rewrite filter_In, in_map_iff. split.
  - intros ((i & <- & I) & H). apply in_seq in I. split; [lia|].
    destruct (is_business_day _ cal) as [[|]|]; congruence.
  - intros (L & ->). split; auto. exists (Z.to_nat (y - a - 1)). split; [lia|]. apply in_seq. lia.
Qed.

Lemma business_in_split cal a b c : a <= b <= c -> business_in cal a c = business_in cal a b ++ business_in cal b c.
Proof.
  intros H. unfold business_in. rewrite <- filter_app. f_equal.
  replace (Z.to_nat (c - a)) with (Z.to_nat (b - a) + Z.to_nat (c - b))%nat by lia.
  rewrite seq_app, map_app. f_equal. cbn [Nat.add].
  rewrite <- (map_map (fun i => (Z.to_nat (b - a) + i)%nat) (fun i => a + 1 + Z.of_nat i)) with (l := seq 0 (Z.to_nat (c - b))) || idtac.
  replace (Z.to_nat (b - a)) with (Z.to_nat (b - a) + 0)%nat at 1 by lia.
  rewrite <- seq_shift_gen || idtac.
  generalize (Z.to_nat (c - b)). intros n.
  assert (G : forall n k, List.map (fun i => a + 1 + Z.of_nat i) (seq (Z.to_nat (b - a) + k) n) = List.map (fun i => b + 1 + Z.of_nat i) (seq k n)).
  { clear n. induction n as [|n IH]; intros k; cbn [seq List.map]; auto. f_equal; [lia|]. rewrite <- IH. f_equal. f_equal. lia. }
  apply G.
Qed.

Lemma filter_none {A} (f : A -> bool) l : (forall x, In x l -> f x = false) -> filter f l = [].
Proof. induction l as [|a l IH]; intros H; cbn; auto. rewrite H by (left; auto). apply IH. intros x I; apply H; right; auto. Qed.

Lemma business_in_one cal d x : next_bd cal d x -> business_in cal d x = [x].
Proof.
  intros (L & [_ B] & N). rewrite (business_in_split cal d (x - 1) x) by lia.
  assert (business_in cal d (x - 1) = []) as ->.
  { apply filter_none. intros y I. apply in_map_iff in I. destruct I as (i & <- & I). apply in_seq in I.
    specialize (N (d + 1 + Z.of_nat i) ltac:(lia)). unfold notbd in N. rewrite N. reflexivity. }
  unfold business_in. replace (Z.to_nat (x - (x - 1))) with 1%nat by lia. cbn [seq List.map filter app].
  replace (x - 1 + 1 + Z.of_nat 0) with x by lia. rewrite B. reflexivity.
Qed.

Lemma up_steps_count cal n : forall d x, up_steps cal n d x -> d <= x /\ List.length (business_in cal d x) = n.
Proof.
  induction n as [|n IH]; cbn [up_steps]; intros d x.
  - intros <-. split; [lia|]. unfold business_in. rewrite Z.sub_diag. reflexivity.
  - intros (m & N & H). destruct (IH _ _ H) as [L E]. assert (d < m) by apply N. split; [lia|].
    rewrite (business_in_split cal d m x) by lia. rewrite (business_in_one cal d m) by auto. cbn. lia.
Qed.

(** add_business_days, both signs *)
Lemma abd_pos cal d n x : date_ok d -> 0 <= n ->
  (add_business_days d n cal = Ok x <-> exists t0, first_on_after cal d t0 /\ up_steps cal (Z.to_nat n) t0 x).
Proof.
  intros Hd Hn. unfold add_business_days. replace (0 <=? n) with true by lia.
  destruct (seek_business 1 cal d) as [t0|e] eqn:S; cbn [bind].
  - apply seek_up_iff in S; auto. rewrite iter_up by apply S. split; [eauto|].
    intros (t & F & U). rewrite (first_unique _ _ _ _ S F). auto.
  - split; [discriminate|]. intros (t & F & U). apply seek_up_iff in F; auto. congruence.
Qed.
Lemma abd_neg cal d n x : date_ok d -> n < 0 ->
  (add_business_days d n cal = Ok x <-> exists t0, first_on_after cal d t0 /\ down_steps cal (Z.to_nat (- n)) t0 x).
Proof.
  intros Hd Hn. unfold add_business_days. replace (0 <=? n) with false by lia.
  destruct (seek_business 1 cal d) as [t0|e] eqn:S; cbn [bind].
  - apply seek_up_iff in S; auto. rewrite iter_down by apply S. split; [eauto|].
    intros (t & F & U). rewrite (first_unique _ _ _ _ S F). auto.
  - split; [discriminate|]. intros (t & F & U). apply seek_up_iff in F; auto. congruence.
Qed.

Lemma iterM_app {A} (f : A -> res A) m n a : iterM (m + n) f a = do b <- iterM m f a; iterM n f b.
Proof. revert a; induction m as [|m IH]; intros a; cbn [Nat.add iterM bind]; auto. destruct (f a); cbn [bind]; auto. Qed.

Lemma abd_compose cal d m n : date_ok d -> 0 <= m -> 0 <= n ->
  add_business_days d (m + n) cal = do x <- add_business_days d m cal; add_business_days x n cal.
Proof.
  intros Hd Hm Hn. unfold add_business_days at 1 2. replace (0 <=? m + n) with true by lia. replace (0 <=? m) with true by lia.
  destruct (seek_business 1 cal d) as [t0|e] eqn:S; cbn [bind]; auto. apply seek_up_iff in S; auto.
  rewrite Z2Nat.inj_add by lia. rewrite iterM_app.
  destruct (iterM (Z.to_nat m) _ t0) as [x|e] eqn:E; cbn [bind]; auto.
  apply iter_up in E; [|apply S]. assert (isbd cal x) by (eapply up_steps_isbd; eauto; apply S).
  unfold add_business_days. rewrite seek_self by auto. cbn [bind]. replace (0 <=? n) with true by lia. reflexivity.
Qed.

Lemma abd_inverse cal d n x : isbd cal d -> 0 <= n -> add_business_days d n cal = Ok x -> add_business_days x (- n) cal = Ok d.
Proof.
  intros B Hn H. apply abd_pos in H; auto; [|apply B]. destruct H as (t0 & F & U).
  assert (t0 = d) as ->. { eapply first_unique; eauto. split; [lia|]. split; auto. intros; lia. }
  assert (isbd cal x) as Bx by (eapply up_steps_isbd; eauto).
  destruct (Z.eq_dec n 0) as [->|].
  - cbn in U. subst x. change (-0) with 0. rewrite add0. apply seek_self; auto.
  - apply abd_neg; [apply Bx|lia|]. exists x. split.
    + split; [lia|]. split; auto. intros; lia.
    + rewrite Z.opp_involutive. apply up_down; auto.
Qed.
Lemma abd_inverse' cal d n x : isbd cal d -> 0 <= n -> add_business_days d (- n) cal = Ok x -> add_business_days x n cal = Ok d.
Proof.
  intros B Hn H. destruct (Z.eq_dec n 0) as [->|].
  - change (-0) with 0 in H. rewrite add0, seek_self in H by auto. injection H as <-. rewrite add0. apply seek_self; auto.
  - apply abd_neg in H; [|apply B|lia]. destruct H as (t0 & F & U). rewrite Z.opp_involutive in U.
    assert (t0 = d) as ->. { eapply first_unique; eauto. split; [lia|]. split; auto. intros; lia. }
    assert (isbd cal x) as Bx by (eapply down_steps_isbd; eauto).
    apply abd_pos; [apply Bx|lia|]. exists x. split.
    + split; [lia|]. split; auto. intros; lia.
    + apply up_down; auto.
Qed.

Lemma up_steps_mono cal n : forall d d' x x', isbd cal d -> isbd cal d' -> d <= d' -> up_steps cal n d x -> up_steps cal n d' x' -> x <= x'.
Proof.
  induction n as [|n IH]; cbn; intros d d' x x' B B' L.
  - intros <- <-. lia.
  - intros (m & N & U) (m' & N' & U'). apply (IH m m'); auto; try apply N; try apply N'.
    destruct (Z_le_gt_dec m m') as [|G]; auto. exfalso. destruct N as (A1 & A2 & A3), N' as (A4 & A5 & A6).
    apply (bd_excl cal m'); auto. apply A3. lia.
Qed.
Lemma down_steps_mono cal n : forall d d' x x', isbd cal d -> isbd cal d' -> d <= d' -> down_steps cal n d x -> down_steps cal n d' x' -> x <= x'.
Proof.
  induction n as [|n IH]; cbn; intros d d' x x' B B' L.
  - intros <- <-. lia.
  - intros (m & N & U) (m' & N' & U'). apply (IH m m'); auto; try apply N; try apply N'.
    destruct (Z_le_gt_dec m m') as [|G]; auto. exfalso. destruct N as (A1 & A2 & A3), N' as (A4 & A5 & A6).
    apply (bd_excl cal m); auto. apply A6. lia.
Qed.

Lemma abd_mono cal n d d' x x' : date_ok d -> date_ok d' -> d <= d' ->
  add_business_days d n cal = Ok x -> add_business_days d' n cal = Ok x' -> x <= x'.
Proof.
  intros Hd Hd' L E E'. destruct (Z_le_gt_dec 0 n) as [Hn|Hn].
  - apply abd_pos in E; auto. apply abd_pos in E'; auto.
    destruct E as (t & F & U), E' as (t' & F' & U').
    eapply up_steps_mono; [apply F|apply F'| |exact U|exact U']. exact (first_mono cal d d' t t' L F F').
  - apply abd_neg in E; auto; try lia. apply abd_neg in E'; auto; try lia.
    destruct E as (t & F & U), E' as (t' & F' & U').
    eapply down_steps_mono; [apply F|apply F'| |exact U|exact U']. exact (first_mono cal d d' t t' L F F').
Qed.

Lemma abd_isbd cal n d x : date_ok d -> add_business_days d n cal = Ok x -> isbd cal x.
Proof.
  intros Hd E. destruct (Z_le_gt_dec 0 n) as [Hn|Hn].
  - apply abd_pos in E; auto. destruct E as (t & F & U). eapply up_steps_isbd; eauto; apply F.
  - apply abd_neg in E; auto; try lia. destruct E as (t & F & U). eapply down_steps_isbd; eauto; apply F.
Qed.

(** T-1 from any date: the business day before T+0; for a non-business day the last one before it. *)
Lemma abd_minus1 cal d x : date_ok d -> add_business_days d (-1) cal = Ok x ->
  prev_bd cal d x.
Proof.
  intros Hd E. apply abd_neg in E; auto; try lia. destruct E as (t & F & U). change (Z.to_nat (- -1)) with 1%nat in U.
  cbn in U. destruct U as (m & N & ->). destruct F as (L & B & Nn), N as (L' & B' & N').
  repeat split; auto; try apply B'.
  - destruct (Z_lt_ge_dec x d); auto. exfalso. apply (bd_excl cal x); auto. apply Nn. lia.
  - intros y Hy. apply N'. lia.
Qed.

(** ---- generate_business_days ---- *)
Definition bd_list (cal : calendar) (s e : date) : list date := business_in cal (s - 1) e.

Lemma gbd_spec cal s e : date_ok s ->
  match generate_business_days s e cal with
  | Ok l => (forall y, s <= y <= e -> isbd cal y \/ notbd cal y) /\
            (exists n, first_on_after cal (Z.max s (e + 1)) n) /\ l = bd_list cal s e
  | Err _ => ~ exists n, first_on_after cal (Z.max s (e + 1)) n /\ (forall y, s <= y <= e -> isbd cal y \/ notbd cal y)
  end.
Proof.
  intros Hs. unfold generate_business_days. rewrite add0.
  assert (FIRST : forall n, first_on_after cal (Z.max s (e + 1)) n -> (forall y, s <= y <= e -> isbd cal y \/ notbd cal y) ->
     forall a, s <= a -> (a <= Z.max s (e+1)) -> exists t, first_on_after cal a t).
  { intros n Fn Tot a La Ha. 
    assert (G : forall k, 0 <= k -> forall a, s <= a -> a <= Z.max s (e+1) -> a = Z.max s (e+1) - k -> exists t, first_on_after cal a t).
    { apply (natlike_ind (fun k => forall a, s <= a -> a <= Z.max s (e+1) -> a = Z.max s (e+1) - k -> exists t, first_on_after cal a t)).
      - intros a0 _ _ ->. rewrite Z.sub_0_r. eauto.
      - intros k Hk IH a0 L1 L2 E. destruct (Tot a0 ltac:(lia)) as [B|B].
        + exists a0. repeat split; auto; try lia; apply B.
        + destruct (IH (a0 + 1)) as (t & (T1 & T2 & T3)); try lia.
          exists t. repeat split; try lia; try apply T2. intros y Hy. destruct (Z.eq_dec y a0) as [->|]; auto. apply T3. lia. }
    apply (G (Z.max s (e+1) - a)); lia. }
  destruct (seek_business 1 cal s) as [cur|x] eqn:S; cbn [bind].
  2:{ intros (n & Fn & Tot). destruct (FIRST n Fn Tot s) as (t & Ft); try lia. apply seek_up_iff in Ft; auto. congruence. }
  apply seek_up_iff in S; auto.
  set (R := fun r : res (list date) => match r with
     | Ok l => (forall y, s <= y <= e -> isbd cal y \/ notbd cal y) /\
            (exists n, first_on_after cal (Z.max s (e + 1)) n) /\ l = bd_list cal s e
     | Err _ => ~ exists n, first_on_after cal (Z.max s (e + 1)) n /\ (forall y, s <= y <= e -> isbd cal y \/ notbd cal y) end).
  apply (loop_rule (step_generate e cal)
     (fun st => isbd cal (fst st) /\ s <= fst st /\ snd st = bd_list cal s (fst st - 1) /\
                (forall y, s <= y < fst st -> isbd cal y \/ notbd cal y) /\
                (forall y, s <= y < fst st -> e < y -> notbd cal y)) R (fun st => max_date - fst st)).
  - intros [a acc] (Ba & La & Ea & Ta & Xa). cbn [fst snd] in *. unfold step_generate.
    destruct (a <=? e) eqn:C.
    + destruct (add_single_business_day a cal) as [nx|x] eqn:A.
      * apply add_single_iff in A; [|apply Ba]. destruct A as [_ (A1 & A2 & A3)]. cbn [fst snd].
        split; [|destruct A2 as [A2 _]; unfold date_ok in A2; lia]. repeat split; try lia; try apply A2.
        -- rewrite Ea. unfold bd_list. rewrite (business_in_split cal (s - 1) (a - 1) (nx - 1)) by lia. f_equal.
           rewrite (business_in_split cal (a - 1) a (nx - 1)) by lia.
           rewrite (business_in_one cal (a - 1) a).
           2:{ repeat split; try lia; try apply Ba. }
           unfold business_in at 1. rewrite filter_none; auto.
           intros y I. apply in_map_iff in I. destruct I as (i & <- & I). apply in_seq in I.
           specialize (A3 (a + 1 + Z.of_nat i) ltac:(lia)). unfold notbd in A3. rewrite A3. reflexivity.
        -- intros y Hy. destruct (Z_lt_ge_dec y a); [apply Ta; lia|]. destruct (Z.eq_dec y a) as [->|]; [left; auto|right; apply A3; lia].
        -- intros y Hy Hey. apply A3. lia.
      * unfold R. intros (n & Fn & Tot).
        assert (exists nx, next_bd cal a nx) as (nx & N).
        { destruct (FIRST n Fn Tot (a + 1)) as (t & T1 & T2 & T3); try lia.
          exists t. repeat split; try lia; try apply T2. intros y Hy. apply T3. lia. }
        assert (add_single_business_day a cal = Ok nx) as E2; [|congruence].
        apply add_single_iff; auto. apply Ba.
    + unfold R. split; [intros; apply Ta; lia|]. split.
      * exists a. repeat split; try lia; try apply Ba. intros y Hy. destruct (Z_le_gt_dec y e); [lia|]. apply Xa; lia.
      * rewrite Ea. unfold bd_list. destruct (Z_le_gt_dec (s - 1) e).
        -- rewrite (business_in_split cal (s - 1) e (a - 1)) by lia.
           assert (business_in cal e (a - 1) = []) as ->; [|apply app_nil_r].
           apply filter_none. intros y I. apply in_map_iff in I. destruct I as (i & <- & I). apply in_seq in I.
           specialize (Xa (e + 1 + Z.of_nat i) ltac:(lia) ltac:(lia)). unfold notbd in Xa. rewrite Xa. reflexivity.
        -- assert (business_in cal (s - 1) e = []) as ->.
           { unfold business_in. replace (Z.to_nat (e - (s - 1))) with 0%nat by lia. reflexivity. }
           apply filter_none. intros y I. apply in_map_iff in I. destruct I as (i & <- & I). apply in_seq in I.
           specialize (Xa (s - 1 + 1 + Z.of_nat i) ltac:(lia) ltac:(lia)). unfold notbd in Xa. rewrite Xa. reflexivity.
  - intros [a acc] ([Ba _] & _). cbn [fst] in *. unfold date_ok in Ba. lia.
  - cbn [fst snd]. destruct S as (S1 & S2 & S3). repeat split; auto; try apply S2.
    + unfold bd_list. symmetry. apply filter_none. intros y I. apply in_map_iff in I. destruct I as (i & <- & I). apply in_seq in I.
      specialize (S3 (s - 1 + 1 + Z.of_nat i) ltac:(lia)). unfold notbd in S3. rewrite S3. reflexivity.
  - destruct S as (S1 & [S2 _] & S3). cbn [fst]. unfold date_ok, max_date, date_fuel, min_date in *. lia.
Qed.
