(** Facts about loans. *)
From Verif Require Import Base PyDate PyDateFacts DayCount DayCountFacts Scheduler SchedulerFacts ModFollFacts KeyRate KeyRateFacts Curve Cashflow CashflowFacts Bond BondFacts P_DayCount Loan.
From Coq Require Import Lra Lqa Reals.
Open Scope Z_scope.
Ltac lra := first [Lra.lra | Lqa.lra].
Ltac nra := first [Lra.nra | Lqa.nra].

(** ---- the date loop ---- *)
Lemma add_months_after d m x : add_months d m = Ok x -> 0 < m -> d < x /\ date_ok x /\ month_index x = month_index d + m.
Proof.
  intros A M. destruct (add_months_parts _ _ _ A) as (O & YM & _). unfold month_index. split; [|split; [exact O|lia]].
  apply date_lt_lex. pose proof (date_parts d). pose proof (date_parts x). lia.
Qed.

Lemma while_le_spec fuel : forall d e m l, 0 < m -> while_le fuel d e m = Ok l ->
  (l = [] <-> e < d) /\ (e < d \/ nth_error l 0 = Some d) /\
  (forall i x y, nth_error l i = Some x -> nth_error l (S i) = Some y -> add_months x m = Ok y) /\
  (forall i x, nth_error l i = Some x -> x <= e) /\
  (forall x, nth_error l (List.length l - 1) = Some x -> exists y, add_months x m = Ok y /\ e < y).
Proof.
  induction fuel as [|fuel IH]; intros d e m l M; cbn [while_le]; [discriminate|].
  destruct (d <=? e) eqn:C.
  - destruct (add_months d m) as [d'|] eqn:A; cbn [bind]; [|discriminate].
    destruct (while_le fuel d' e m) as [r|] eqn:W; cbn [bind]; [|discriminate]. intros [= <-].
    destruct (IH d' e m r M W) as (N & H0 & ST & LE & LAST). split; [split; [discriminate|lia]|]. split; [right; reflexivity|]. split; [|split].
    + intros [|i] x y; cbn [nth_error]; [|apply ST]. intros [= <-] E. destruct H0 as [H0|H0].
      * apply N in H0. subst r. discriminate.
      * change (nth_error r 0 = Some y) in E. congruence.
    + intros [|i] x; cbn [nth_error]; [intros [= <-]; lia | apply LE].
    + intros x. cbn [List.length]. destruct r as [|r0 r].
      * cbn. intros [= <-]. exists d'. split; auto. apply N. reflexivity.
      * cbn [List.length]. replace (S (S (List.length r)) - 1)%nat with (S (S (List.length r) - 1)) by lia. cbn [nth_error]. apply LAST.
  - intros [= <-]. split; [split; [lia|auto]|]. split; [left; lia|].
    split; [intros [|i]; discriminate|split; [intros [|i]; discriminate|intros x; cbn; discriminate]].
Qed.

Lemma while_le_fuel fuel : forall d e m, 0 < m -> e - d + 1 <= Z.of_nat fuel -> while_le (S fuel) d e m <> Err OutOfFuel.
Proof.
  induction fuel as [|fuel IH]; intros d e m M L.
  - cbn [while_le]. destruct (d <=? e) eqn:C; [cbn in L; lia | discriminate].
  - remember (S fuel) as f. cbn [while_le]. destruct (d <=? e) eqn:C; [|discriminate]. destruct (add_months d m) as [d'|] eqn:A; cbn [bind].
    + destruct (add_months_after _ _ _ A M) as (Lt & _). subst f. specialize (IH d' e m M ltac:(lia)). destruct (while_le (S fuel) d' e m); cbn [bind]; [discriminate|exact IH].
    + unfold add_months, mk_date in A. destruct (ymd_ok _ _ _); [discriminate|]. injection A as <-. discriminate.
Qed.
Lemma payment_dates_fuel d e m : 0 < m -> payment_dates d e m <> Err OutOfFuel.
Proof. intros M. apply while_le_fuel; lia. Qed.

(** ---- amounts ---- *)
Definition bal (b : R) (ps : list loan_payment) (k : nat) : R := (b - rsum (List.map lp_principal (firstn k ps)))%R.
Lemma bal_0 b ps : bal b ps 0 = b. Proof. unfold bal. cbn [firstn List.map]. rewrite rsum_nil. lra. Qed.
Lemma bal_S b p ps k : bal b (p :: ps) (S k) = bal (b - lp_principal p) ps k.
Proof. unfold bal. cbn [firstn List.map]. rewrite rsum_cons. lra. Qed.
Lemma bal_step b ps k p : nth_error ps k = Some p -> bal b ps (S k) = (bal b ps k - lp_principal p)%R.
Proof.
  revert b ps. induction k as [|k IH]; intros b [|q ps]; cbn [nth_error]; try discriminate.
  - intros [= ->]. rewrite bal_S, !bal_0. reflexivity.
  - intros E. rewrite !bal_S. apply IH. exact E.
Qed.

Lemma amortize_spec l periods : forall pay rem ps, amortize l periods pay rem = Ok ps ->
  List.length ps = List.length periods /\
  forall k p, nth_error ps k = Some p -> exists x s a, nth_error periods k = Some (x, (s, lp_date p)) /\ acc (l_dcc l) s (lp_date p) = Ok a /\
    lp_interest p = (Q2R a * l_rate l * bal rem ps k)%R /\ (lp_principal p <= bal rem ps k)%R.
Proof.
  induction periods as [|[x [s e]] rest IH]; intros pay rem ps; cbn [amortize].
  - intros [= <-]. split; [reflexivity|]. intros [|k] p; discriminate.
  - unfold calculate_interest_payment. destruct (acc (l_dcc l) s e) as [a|] eqn:A; cbn [bind]; [|discriminate].
    destruct (Rle_dec rem _) as [C|C].
    + destruct (amortize l rest _ _) as [r|] eqn:E; cbn [bind]; [|discriminate]. intros [= <-]. destruct (IH _ _ _ E) as [Ln H]. split; [cbn; lia|].
      intros [|k] p; cbn [nth_error].
      * intros [= <-]. exists x, s, a. rewrite bal_0. cbn. repeat split; auto. lra.
      * intros Ep. rewrite bal_S. cbn [lp_principal]. apply H. exact Ep.
    + destruct (amortize l rest _ _) as [r|] eqn:E; cbn [bind]; [|discriminate]. intros [= <-]. destruct (IH _ _ _ E) as [Ln H]. split; [cbn; lia|].
      intros [|k] p; cbn [nth_error].
      * intros [= <-]. exists x, s, a. rewrite bal_0. cbn. repeat split; auto. lra.
      * intros Ep. rewrite bal_S. cbn [lp_principal]. apply H. exact Ep.
Qed.

(** with non-negative terms: what is paid *)
Lemma amortize_nonneg l pay0 periods : (forall x s e, In (x, (s, e)) periods -> (0 <= x)%R) -> (0 <= l_rate l)%R ->
  (forall x s e a, In (x, (s, e)) periods -> acc (l_dcc l) s e = Ok a -> (0 <= Q2R a)%R) ->
  forall pay rem ps, (0 <= pay)%R -> (0 <= rem)%R -> (pay = pay0 \/ rem = 0%R) -> amortize l periods pay rem = Ok ps ->
  forall k, (0 <= bal rem ps k)%R /\ forall p, nth_error ps k = Some p -> exists x s, nth_error periods k = Some (x, (s, lp_date p)) /\ (0 <= lp_interest p)%R /\
    ((bal rem ps k + lp_interest p > pay0 + x /\ bal rem ps k > 0 /\ lp_payment p = pay0 /\ lp_principal p = pay0 + x - lp_interest p)%R \/
     ((bal rem ps k + lp_interest p <= pay0 + x \/ bal rem ps k = 0) /\ lp_payment p = bal rem ps k + lp_interest p /\ lp_principal p = bal rem ps k)%R).
Proof.
  intros X Rt Ac. induction periods as [|[x [s e]] rest IH]; intros pay rem ps Pp Pr Dj; cbn [amortize].
  - intros [= <-] k. split; [|intros p; destruct k; discriminate]. unfold bal. rewrite firstn_nil. cbn [List.map]. rewrite rsum_nil. lra.
  - unfold calculate_interest_payment. destruct (acc (l_dcc l) s e) as [a|] eqn:A; cbn [bind]; [|discriminate].
    pose proof (X x s e (or_introl eq_refl)) as Xp. pose proof (Ac x s e a (or_introl eq_refl) A) as Ap.
    set (i := (Q2R a * l_rate l * rem)%R) in *. assert (Ip : (0 <= i)%R) by (unfold i; apply Rmult_le_pos; [apply Rmult_le_pos; auto|auto]).
    assert (IH' := IH (fun x s e I => X x s e (or_intror I)) (fun x s e a I => Ac x s e a (or_intror I))). clear IH.
    assert (I0 : rem = 0%R -> i = 0%R) by (intros ->; unfold i; ring).
    destruct (Rle_dec rem _) as [C|C].
    + destruct (amortize l rest _ _) as [r|] eqn:E; cbn [bind]; [|discriminate]. intros [= <-] k.
      specialize (IH' (rem + i)%R (rem - rem)%R r ltac:(lra) ltac:(lra) ltac:(right; lra) E).
      destruct k as [|k].
      * rewrite bal_0. split; [auto|]. intros p [= <-]. exists x, s. cbn [nth_error lp_date lp_interest lp_payment lp_principal]. split; [auto|]. split; [auto|]. right.
        split; [|split; lra]. destruct Dj as [-> | ->]; [left; lra | right; reflexivity].
      * rewrite bal_S. cbn [lp_principal nth_error]. apply IH'.
    + destruct (amortize l rest _ _) as [r|] eqn:E; cbn [bind]; [|discriminate]. intros [= <-] k.
      assert (Ne : rem <> 0%R) by (intros Z0; specialize (I0 Z0); lra).
      destruct Dj as [-> | Z0]; [|contradiction].
      specialize (IH' pay0 (rem - (pay0 - i + x))%R r Pp ltac:(lra) ltac:(left; reflexivity) E). destruct k as [|k].
      * rewrite bal_0. split; [auto|]. intros p [= <-]. exists x, s. cbn [nth_error lp_date lp_interest lp_payment lp_principal]. split; [auto|]. split; [auto|]. left. lra.
      * rewrite bal_S. cbn [lp_principal nth_error]. apply IH'.
Qed.

Lemma pairwise_length {A} (l : list A) : List.length (pairwise l) = (List.length l - 1)%nat.
Proof. induction l as [|a [|b l] IH]; cbn [pairwise List.length] in *; lia. Qed.
Lemma pairwise_nth {A} (l : list A) k a b : nth_error (pairwise l) k = Some (a, b) <-> nth_error l k = Some a /\ nth_error l (S k) = Some b.
Proof.
  revert k. induction l as [|x [|y l] IH]; intros k.
  - cbn. destruct k; cbn; split; [discriminate|intros []; discriminate|discriminate|intros []; discriminate].
  - cbn. destruct k; cbn; split; try discriminate; intros []; try discriminate; destruct k; discriminate.
  - change (pairwise (x :: y :: l)) with ((x, y) :: pairwise (y :: l)). destruct k as [|k]; cbn [nth_error].
    + split; [intros [= <- <-]; auto | intros [[= <-] [= <-]]; auto].
    + apply IH.
Qed.
Lemma combine_nth_error {A B} (l : list A) (l' : list B) k a b : nth_error (combine l l') k = Some (a, b) <-> nth_error l k = Some a /\ nth_error l' k = Some b.
Proof.
  revert l l'. induction k as [|k IH]; intros [|x l] [|y l']; cbn; try (split; [discriminate|intros []; discriminate]).
  - split; [intros [= <- <-]; auto|intros [[= <-] [= <-]]; auto].
  - apply IH.
Qed.

Lemma nth_error_firstn' {A} (l : list A) n k : (k < n)%nat -> nth_error (firstn n l) k = nth_error l k.
Proof. revert n k. induction l as [|a l IH]; intros [|n] [|k] L; cbn; try lia; auto. apply IH. lia. Qed.

(** spec: the extra payment accompanying payment k *)
Definition extra_at (x : extra) (k : nat) : R := match x with NoExtra => 0%R | FloatExtra v => v | ListExtra l => nth k l 0%R | IntExtra _ => 0%R end.
Lemma unpack_nth x n l : unpack_extra x n = Ok l -> List.length l = n /\ forall k v, nth_error l k = Some v -> v = extra_at x k.
Proof.
  assert (Rp : forall v k m (u : R), nth_error (repeat v m) k = Some u -> u = v). { intros v k m u E. apply nth_error_In in E. apply repeat_spec in E. auto. }
  destruct x as [|v|li|z]; cbn [unpack_extra extra_at].
  - intros [= <-]. split; [apply repeat_length|]. intros k v. apply Rp.
  - intros [= <-]. split; [apply repeat_length|]. intros k u. apply Rp.
  - destruct (Nat.leb (List.length li) n) eqn:C; intros [= <-].
    + apply Nat.leb_le in C. split; [rewrite app_length, repeat_length; lia|]. intros k v E. destruct (Nat.lt_ge_cases k (List.length li)) as [L|L].
      * rewrite nth_error_app1 in E by auto. symmetry. apply nth_error_nth. auto.
      * rewrite nth_error_app2 in E by auto. apply Rp in E. rewrite nth_overflow by auto. auto.
    + apply Nat.leb_gt in C. split; [rewrite firstn_length; lia|]. intros k v E. symmetry. apply nth_error_nth.
      rewrite <- E. symmetry. apply nth_error_firstn'. assert (k < List.length (firstn n li))%nat by (apply nth_error_Some; congruence). rewrite firstn_length in *. lia.
  - discriminate.
Qed.

(** everything about a generated schedule *)
Record sched (l : loan) (pay : R) (x : extra) (ps : list loan_payment) := Sched {
  sc_s : date; sc_e : date; sc_m : Z; sc_dates : list date; sc_ex : list R;
  sc_start : schedule_start l = Ok sc_s; sc_end : add_increment sc_s (l_term l) = Ok sc_e; sc_step : loan_step (l_freq l) = Ok sc_m;
  sc_grid : payment_dates sc_s sc_e sc_m = Ok sc_dates; sc_extra : unpack_extra x (List.length sc_dates) = Ok sc_ex;
  sc_run : amortize l (combine sc_ex (pairwise sc_dates)) pay (l_principal l) = Ok ps }.
Lemma schedule_inv l pay x ps : generate_payment_schedule l pay x = Ok ps -> inhabited (sched l pay x ps).
Proof.
  unfold generate_payment_schedule. destruct (schedule_start l) as [s|] eqn:E1; cbn [bind]; [|discriminate].
  destruct (add_increment s (l_term l)) as [e|] eqn:E2; cbn [bind]; [|discriminate].
  destruct (loan_step (l_freq l)) as [m|] eqn:E3; cbn [bind]; [|discriminate].
  destruct (payment_dates s e m) as [ds|] eqn:E4; cbn [bind]; [|discriminate].
  destruct (unpack_extra x _) as [ex|] eqn:E5; cbn [bind]; [|discriminate]. intros H. constructor. econstructor; eauto.
Qed.
Lemma step_bounds f m : loan_step f = Ok m -> 0 < m /\ m * per_year f = 12 /\ 0 < per_year f.
Proof. destruct f; cbn; intros [= <-]; lia. Qed.

(** ---- reading a schedule ---- *)
Lemma sched_length l pay x ps (h : sched l pay x ps) : List.length ps = (List.length (sc_dates _ _ _ _ h) - 1)%nat.
Proof.
  destruct h as [s e m ds ex H1 H2 H3 H4 H5 H6]. cbn. destruct (amortize_spec _ _ _ _ _ H6) as [Ln _].
  destruct (unpack_nth _ _ _ H5) as [Le _]. rewrite Ln, combine_length, pairwise_length, Le. lia.
Qed.
Lemma sched_entry l pay x ps (h : sched l pay x ps) k p : nth_error ps k = Some p -> exists d a,
  nth_error (sc_dates _ _ _ _ h) k = Some d /\ nth_error (sc_dates _ _ _ _ h) (S k) = Some (lp_date p) /\
  nth_error (combine (sc_ex _ _ _ _ h) (pairwise (sc_dates _ _ _ _ h))) k = Some (extra_at x k, (d, lp_date p)) /\ acc (l_dcc l) d (lp_date p) = Ok a /\
  lp_interest p = (Q2R a * l_rate l * bal (l_principal l) ps k)%R /\ (lp_principal p <= bal (l_principal l) ps k)%R.
Proof.
  destruct h as [s e m ds ex H1 H2 H3 H4 H5 H6]. cbn. intros E. destruct (amortize_spec _ _ _ _ _ H6) as [Ln H].
  destruct (H k p E) as (v & d & a & N & A & I & P). destruct (unpack_nth _ _ _ H5) as [_ Ex].
  pose proof N as N'. apply combine_nth_error in N'. destruct N' as [N1 N2]. apply pairwise_nth in N2. apply Ex in N1. subst v.
  exists d, a. repeat split; tauto || auto.
Qed.
Lemma grid_head d e m ds x : 0 < m -> payment_dates d e m = Ok ds -> nth_error ds 0 = Some x -> x = d.
Proof.
  intros M W E. destruct (while_le_spec _ _ _ _ _ M W) as (N & H0 & _). destruct H0 as [H0|H0]; [|congruence].
  apply N in H0. subst ds. discriminate.
Qed.
Lemma grid_real d e m ds : 0 < m -> real_date d -> payment_dates d e m = Ok ds -> forall k x, nth_error ds k = Some x -> real_date x.
Proof.
  intros M Rd W. pose proof (while_le_spec _ _ _ _ _ M W) as (N & H0 & ST & _).
  induction k as [|k IH]; intros x E.
  - rewrite (grid_head _ _ _ _ _ M W E). exact Rd.
  - destruct (nth_error ds k) as [y|] eqn:Ey; [|apply nth_error_None in Ey; assert (nth_error ds (S k) = None) by (apply nth_error_None; lia); congruence].
    specialize (ST _ _ _ Ey E). destruct (add_months_after _ _ _ ST M) as (Lt & O & _). destruct (IH _ eq_refl) as [_ Y].
    split; [exact O|]. pose proof (year_mono y x ltac:(lia)). lia.
Qed.
Lemma step_accrual c d x m a : 0 < m -> real_date d -> add_months d m = Ok x -> acc c d x = Ok a -> (0 <= Q2R a)%R.
Proof.
  intros M Rd A E. destruct (add_months_after _ _ _ A M) as (Lt & O & MI).
  replace 0%R with (Q2R 0) by (unfold Q2R; cbn; lra). apply Qle_Rle.
  assert (C : c = THIRTY360 \/ c <> THIRTY360) by (destruct c; auto; right; discriminate). destruct C as [-> | C].
  - destruct (C03_sign d x a ltac:(lia) E) as [Ng _]. apply Qnot_lt_le. intros B. apply Ng in B. unfold month_index in MI. lia.
  - assert (Rx : real_date x). { split; [exact O|]. destruct Rd as [_ Y]. pose proof (year_mono d x ltac:(lia)). lia. }
    destruct (acc_order c d x x C Rd Rx ltac:(lia)) as (q & r & Eq & _ & B & _). unfold acc in E. unfold acc in Eq. rewrite E in Eq. injection Eq as <-. tauto.
Qed.
Lemma schedule_start_real l s : real_date (l_origination l) -> schedule_start l = Ok s -> real_date s.
Proof.
  intros [O Y] E. unfold schedule_start in E. destruct (l_time l); [|destruct (month (l_origination l) =? 12)|discriminate];
    apply mk_date_date_ok in E; destruct E as (Os & Ys & _); split; auto; lia.
Qed.
Lemma schedule_start_first l s : l_time l = START_OF_MONTH -> schedule_start l = Ok s -> day s = 1 /\ date_ok s /\ month_index s = month_index (l_origination l) + 1.
Proof.
  intros T E. unfold schedule_start in E. rewrite T in E. unfold month_index. destruct (month (l_origination l) =? 12) eqn:C;
    apply mk_date_date_ok in E; destruct E as (Os & Ys & Ms & Ds); (split; [lia|split; [exact Os|lia]]).
Qed.
(** from a day every month has, the grid is the arithmetic one *)
Lemma grid_28 d e m ds : 0 < m -> day d <= 28 -> date_ok d -> payment_dates d e m = Ok ds -> forall k x, nth_error ds k = Some x <-> add_months d (Z.of_nat k * m) = Ok x /\ x <= e.
Proof.
  intros M D O W. pose proof (while_le_spec _ _ _ _ _ M W) as (N & H0 & ST & LE & LAST).
  assert (F : forall k x, nth_error ds k = Some x -> add_months d (Z.of_nat k * m) = Ok x).
  { induction k as [|k IH]; intros x E.
    - rewrite (grid_head _ _ _ _ _ M W E). apply add_months_0. exact O.
    - destruct (nth_error ds k) as [y|] eqn:Ey; [|apply nth_error_None in Ey; assert (nth_error ds (S k) = None) by (apply nth_error_None; lia); congruence].
      specialize (ST _ _ _ Ey E). replace (Z.of_nat (S k) * m) with (Z.of_nat k * m + m) by lia. eapply add_months_comp; eauto. }
  intros k x. split; [intros E; split; [apply F; exact E|eapply LE; exact E]|]. intros [A L].
  destruct (nth_error ds k) as [y|] eqn:Ey; [apply F in Ey; congruence|]. exfalso. apply nth_error_None in Ey.
  destruct H0 as [H0|H0].
  - assert (d <= x). { destruct (Z.eq_dec (Z.of_nat k * m) 0) as [Z0|Z0]; [rewrite Z0, add_months_0 in A by auto; injection A as <-; lia|].
      pose proof (add_months_order d 0 (Z.of_nat k * m) d x D (add_months_0 d O) A) as [_ Q]. specialize (Q ltac:(nia)). lia. }
    lia.
  - assert (Ln : (0 < List.length ds)%nat) by (apply nth_error_Some; congruence || (rewrite H0; discriminate)).
    destruct (nth_error ds (List.length ds - 1)) as [z|] eqn:Ez; [|apply nth_error_None in Ez; lia].
    destruct (LAST z eq_refl) as (y & Ay & Ly). apply F in Ez. assert (Ay' := add_months_comp _ _ _ _ _ D Ez Ay).
    assert (y <= x). { destruct (Nat.eq_dec k (List.length ds)) as [->|K].
      - replace (Z.of_nat (List.length ds - 1) * m + m) with (Z.of_nat (List.length ds) * m) in Ay' by nia. assert (x = y) by congruence. lia.
      - pose proof (add_months_order d _ _ _ _ D Ay' A) as [_ Q]. specialize (Q ltac:(nia)). lia. }
    lia.
Qed.

Lemma while_le_ok fuel : forall d e m K z, 0 < m -> day d <= 28 -> date_ok d -> 0 <= K -> add_months d (K * m) = Ok z -> e < z ->
  forall x, while_le fuel d e m = Err x -> x = OutOfFuel.
Proof.
  induction fuel as [|fuel IH]; intros d e m K z M D O Kp A L x; cbn [while_le]; [intros [= <-]; reflexivity|].
  destruct (d <=? e) eqn:C; [|discriminate].
  assert (K1 : 1 <= K). { destruct (Z.eq_dec K 0) as [-> | ]; [|lia]. change (0 * m) with 0 in A. rewrite add_months_0 in A by auto. injection A as <-. lia. }
  assert (exists d', add_months d m = Ok d') as [d' A'].
  { pose proof (add_months_parts _ _ _ A) as (Oz & Mz & _). apply date_ok_year in Oz. pose proof (date_parts z) as (Bz & _). pose proof (date_parts d) as (Bd & _).
    apply date_ok_year in O. assert (m <= K * m) by nia.
    set (t := year d * 12 + (month d - 1) + m). exists (ymd2ord (t / 12) (t mod 12 + 1) (Z.min (day d) (days_in_month (t / 12) (t mod 12 + 1)))).
    apply add_months_ok. exists (t / 12), (t mod 12 + 1). pose proof (Z.div_mod t 12 ltac:(lia)). pose proof (Z.mod_pos_bound t 12 ltac:(lia)).
    unfold t in *. repeat split; lia. }
  rewrite A'. cbn [bind]. destruct (add_months_28 _ _ _ D A') as (O' & D' & _).
  assert (B := add_months_back d m ((K - 1) * m) d' z D A' ltac:(replace (m + (K - 1) * m) with (K * m) by lia; exact A)).
  destruct (while_le fuel d' e m) as [r|y] eqn:W; cbn [bind]; [discriminate|]. intros [= <-].
  exact (IH d' e m (K - 1) z M ltac:(lia) O' ltac:(lia) B L _ W).
Qed.
Lemma grid_ok d e m K z : 0 < m -> day d <= 28 -> date_ok d -> 0 <= K -> add_months d (K * m) = Ok z -> e < z -> exists ds, payment_dates d e m = Ok ds.
Proof.
  intros M D O Kp A L. destruct (payment_dates d e m) as [ds|x] eqn:E; [eauto|]. exfalso.
  assert (x = OutOfFuel) by (eapply while_le_ok; [| | | | | |exact E]; eauto). subst x. exact (payment_dates_fuel _ _ _ M E).
Qed.

(** level payments: rem c q^j = pay (q^j - 1) with j payments left *)
Lemma amortize_level l c : (0 < c)%R -> forall periods pay rem, (0 < pay)%R ->
  (forall x s e, In (x, (s, e)) periods -> x = 0%R /\ exists a, acc (l_dcc l) s e = Ok a /\ (Q2R a * l_rate l = c)%R) ->
  (rem * c * (1 + c) ^ List.length periods = pay * ((1 + c) ^ List.length periods - 1))%R ->
  exists ps, amortize l periods pay rem = Ok ps /\ List.length ps = List.length periods /\ (forall p, In p ps -> lp_payment p = pay) /\
    forall k, (k <= List.length periods)%nat -> (bal rem ps k * c * (1 + c) ^ (List.length periods - k) = pay * ((1 + c) ^ (List.length periods - k) - 1))%R.
Proof.
  intros Cp. induction periods as [|[x [s e]] rest IH]; intros pay rem Pp H E; cbn [amortize].
  - exists []. split; [reflexivity|]. split; [reflexivity|]. split; [intros p []|]. intros k K. cbn in K. replace k with O by lia. rewrite bal_0. exact E.
  - destruct (H x s e (or_introl eq_refl)) as (-> & a & A & Ac). unfold calculate_interest_payment. rewrite A. cbn [bind]. rewrite Ac.
    assert (Q : (0 < (1 + c) ^ List.length rest)%R) by (apply pow_lt; lra).
    assert (E' : ((rem - (pay - c * rem)) * c * (1 + c) ^ List.length rest = pay * ((1 + c) ^ List.length rest - 1))%R).
    { cbn [List.length pow] in E. set (w := ((1 + c) ^ List.length rest)%R) in *.
      replace ((rem - (pay - c * rem)) * c * w)%R with (rem * c * ((1 + c) * w) - pay * c * w)%R by ring. rewrite E. ring. }
    destruct (Nat.eq_dec (List.length rest) 0) as [L0|L0].
    + assert (rest = []) by (destruct rest; [auto|discriminate]). subst rest. cbn [List.length pow] in E'.
      assert (Eq : (pay = rem + c * rem)%R).
      { replace (pay * (1 - 1))%R with 0%R in E' by ring. assert ((rem - (pay - c * rem)) * c = 0)%R by lra. apply Rmult_integral in H0. destruct H0; lra. }
      destruct (Rle_dec rem (pay - c * rem + 0)) as [D|D]; [|exfalso; lra]. cbn [amortize bind].
      eexists. split; [reflexivity|]. split; [reflexivity|]. split; [intros p [<- | []]; cbn; lra|].
      intros [|[|k]] K; cbn in K; try lia; [rewrite bal_0; exact E|]. rewrite bal_S, bal_0. cbn [lp_principal List.length Nat.sub pow]. ring.
    + assert (Rp : (0 < rem - (pay - c * rem))%R).
      { assert (1 < (1 + c) ^ List.length rest)%R by (apply Rlt_pow_R1; [lra|lia]).
        assert (0 < (rem - (pay - c * rem)) * c * (1 + c) ^ List.length rest)%R by (rewrite E'; apply Rmult_lt_0_compat; lra).
        apply Rnot_le_lt. intros Le. set (y := (rem - (pay - c * rem))%R) in *. set (w := ((1 + c) ^ List.length rest)%R) in *.
        assert (0 <= - y * c)%R by (apply Rmult_le_pos; lra). assert (0 <= - y * c * w)%R by (apply Rmult_le_pos; lra). lra. }
      destruct (Rle_dec rem (pay - c * rem + 0)) as [D|D]; [exfalso; lra|].
      replace (rem - (pay - c * rem + 0))%R with (rem - (pay - c * rem))%R by ring.
      destruct (IH pay (rem - (pay - c * rem))%R Pp (fun x s e I => H x s e (or_intror I)) E') as (ps & Ea & Ln & Pay & B). rewrite Ea. cbn [bind].
      eexists. split; [reflexivity|]. split; [cbn; lia|]. split; [intros p [<- | I]; [reflexivity|auto]|].
      intros [|k] K; [rewrite bal_0; exact E|]. cbn in K. rewrite bal_S. cbn [lp_principal List.length Nat.sub].
      replace (rem - (pay - c * rem + 0))%R with (rem - (pay - c * rem))%R by ring. apply B. lia.
Qed.
