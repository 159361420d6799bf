(** Modified following, settlement and date grids. *)
From Verif Require Import Base PyDate PyDateFacts Holidays Scheduler LoopFacts SchedulerFacts CalendarSpec UsFacts.
Open Scope Z_scope.
Ltac Zify.zify_post_hook ::= Z.div_mod_to_equations.

(** ---- US calendar: every four consecutive days contain a business day (finite check) ---- *)
Definition nextmd (leap : bool) (md : Z * Z) : Z * Z :=
  let '(m, d) := md in if d <? dim_l leap m then (m, d + 1) else if m <? 12 then (m + 1, 1) else (1, 1).
Lemma nextmd_succ d : (month (d + 1), day (d + 1)) = nextmd (is_leap (year d)) (month d, day d).
Proof.
  unfold nextmd. fold (days_in_month (year d) (month d)).
  destruct (succ_parts d) as [(L & _ & -> & ->)|[(E & L & _ & -> & ->)|(E & L & _ & -> & ->)]].
  - replace (day d <? days_in_month (year d) (month d)) with true by lia. reflexivity.
  - replace (day d <? days_in_month (year d) (month d)) with false by lia. replace (month d <? 12) with true by lia. reflexivity.
  - replace (day d <? days_in_month (year d) (month d)) with false by lia. replace (month d <? 12) with false by lia. reflexivity.
Qed.

Definition bus (md : Z * Z) (w : Z) : bool := us_business (fst md) (snd md) (w mod 7).
Definition win4 (l0 l1 l2 : bool) (md : Z * Z) (w : Z) : bool :=
  let md1 := nextmd l0 md in let md2 := nextmd l1 md1 in let md3 := nextmd l2 md2 in
  bus md w || bus md1 (w + 1) || bus md2 (w + 2) || bus md3 (w + 3).
Definition bools := [true; false].
Definition zs (a n : nat) : list Z := List.map Z.of_nat (seq a n).
Lemma win4_all : forallb (fun l0 => forallb (fun l1 => forallb (fun l2 => forallb (fun m => forallb (fun d => forallb (fun w =>
   win4 l0 l1 l2 (m, d) w) (zs 0 7)) (zs 1 31)) (zs 1 12)) bools) bools) bools = true.
Proof. vm_compute. reflexivity. Qed.

Lemma zs_In a n x : In x (zs a n) <-> Z.of_nat a <= x < Z.of_nat (a + n).
Proof.
  unfold zs. rewrite in_map_iff. split.
  - intros (i & <- & I). apply in_seq in I. lia.
  - intros H. exists (Z.to_nat x). split; [lia|]. apply in_seq. lia.
Qed.
Lemma bools_In b : In b bools. Proof. destruct b; cbn; auto. Qed.

Lemma win4_spec l0 l1 l2 m d w : 1 <= m <= 12 -> 1 <= d <= 31 -> 0 <= w <= 6 -> win4 l0 l1 l2 (m, d) w = true.
Proof.
  intros Hm Hd Hw. pose proof win4_all as A.
  rewrite forallb_forall in A. specialize (A l0 (bools_In l0)). cbv beta in A.
  rewrite forallb_forall in A. specialize (A l1 (bools_In l1)). cbv beta in A.
  rewrite forallb_forall in A. specialize (A l2 (bools_In l2)). cbv beta in A.
  rewrite forallb_forall in A. specialize (A m (proj2 (zs_In 1 12 m) ltac:(lia))). cbv beta in A.
  rewrite forallb_forall in A. specialize (A d (proj2 (zs_In 1 31 d) ltac:(lia))). cbv beta in A.
  rewrite forallb_forall in A. specialize (A w (proj2 (zs_In 0 7 w) ltac:(lia))). exact A.
Qed.

Notation US := US_FEDERAL_HOLIDAYS.

Lemma us_isbd d : date_ok d -> (isbd US d <-> us_business (month d) (day d) (weekday d) = true).
Proof. intros H. unfold isbd. rewrite us_business_day by auto. split; [intros [_ [= E]]|intros ->]; auto. Qed.
Lemma us_notbd d : date_ok d -> (notbd US d <-> us_business (month d) (day d) (weekday d) = false).
Proof. intros H. unfold notbd. rewrite us_business_day by auto. split; [intros [= E]|intros ->]; auto. Qed.
Lemma us_dec d : date_ok d -> isbd US d \/ notbd US d.
Proof. intros H. rewrite us_isbd, us_notbd by auto. destruct (us_business _ _ _); auto. Qed.

Lemma us_window d : date_ok d -> date_ok (d + 3) -> exists x, d <= x <= d + 3 /\ isbd US x.
Proof.
  intros H0 H3. 
  assert (OK : forall k, 0 <= k <= 3 -> date_ok (d + k)) by (unfold date_ok in *; intros; lia).
  destruct (date_parts d) as (M & D & _ & _). pose proof (month_len (year d) (month d) M) as ML.
  pose proof (win4_spec (is_leap (year d)) (is_leap (year (d + 1))) (is_leap (year (d + 2))) (month d) (day d) (weekday d)
     M ltac:(lia) (weekday_range d)) as W.
  unfold win4 in W. rewrite <- nextmd_succ in W.
  rewrite <- nextmd_succ in W. replace (d + 1 + 1) with (d + 2) in W by lia.
  rewrite <- nextmd_succ in W. replace (d + 2 + 1) with (d + 3) in W by lia.
  unfold bus in W. cbn [fst snd] in W.
  assert (WD : forall k, (weekday d + k) mod 7 = weekday (d + k)) by (intros k; unfold weekday; lia).
  rewrite !WD in W. replace (weekday d mod 7) with (weekday d) in W by (unfold weekday; lia).
  rewrite !orb_true_iff in W. destruct W as [[[W|W]|W]|W].
  - exists d. split; [lia|]. apply us_isbd; auto.
  - exists (d + 1). split; [lia|]. apply us_isbd; auto. apply OK; lia.
  - exists (d + 2). split; [lia|]. apply us_isbd; auto. apply OK; lia.
  - exists (d + 3). split; [lia|]. apply us_isbd; auto.
Qed.

Lemma us_last_isbd : isbd US max_date.
Proof. split; [unfold date_ok; unfold min_date, max_date; lia|]. vm_compute. reflexivity. Qed.

(** existence of least / greatest witnesses for the US calendar *)
Lemma us_first_within d x : date_ok d -> d <= x -> isbd US x -> exists c, first_on_after US d c /\ c <= x.
Proof.
  intros Hd L B. assert (G : forall k, 0 <= k -> forall d, date_ok d -> x = d + k -> exists c, first_on_after US d c /\ c <= x).
  { apply (natlike_ind (fun k => forall d, date_ok d -> x = d + k -> exists c, first_on_after US d c /\ c <= x)).
    - intros d0 H0 ->. exists (d0 + 0). split; [|lia]. repeat split; try lia; try apply B.
    - intros k Hk IH d0 H0 E. destruct (us_dec d0 H0) as [B0|B0].
      + exists d0. split; [|lia]. repeat split; try lia; apply B0.
      + destruct (IH (d0 + 1)) as (c & (C1 & C2 & C3) & C4).
        * destruct B as [B _]. unfold date_ok in *. lia.
        * lia.
        * exists c. split; auto. repeat split; try lia; try apply C2. intros y Hy. destruct (Z.eq_dec y d0) as [->|]; auto. apply C3; lia. }
  apply (G (x - d)); auto; lia.
Qed.
Lemma us_prev_within d x : date_ok d -> x < d -> isbd US x -> exists c, prev_bd US d c /\ x <= c.
Proof.
  intros Hd L B. assert (G : forall k, 0 <= k -> forall d, date_ok d -> d = x + 1 + k -> exists c, prev_bd US d c /\ x <= c).
  { apply (natlike_ind (fun k => forall d, date_ok d -> d = x + 1 + k -> exists c, prev_bd US d c /\ x <= c)).
    - intros d0 H0 ->. exists x. split; [|lia]. repeat split; try lia; try apply B.
    - intros k Hk IH d0 H0 E. assert (O1 : date_ok (d0 - 1)) by (destruct B as [B _]; unfold date_ok in *; lia).
      destruct (us_dec (d0 - 1) O1) as [B0|B0].
      + exists (d0 - 1). split; [|lia]. repeat split; try lia; apply B0.
      + destruct (IH (d0 - 1)) as (c & (C1 & C2 & C3) & C4); auto; try lia.
        exists c. split; auto. repeat split; try lia; try apply C2. intros y Hy. destruct (Z.eq_dec y (d0 - 1)) as [->|]; auto. apply C3; lia. }
  apply (G (d - x - 1)); auto; lia.
Qed.

Lemma us_following d : date_ok d -> exists c, add_business_days d 0 US = Ok c /\ first_on_after US d c /\ c <= d + 3.
Proof.
  intros Hd. assert (exists c, first_on_after US d c /\ c <= d + 3) as (c & F & L).
  { destruct (Z_le_gt_dec (d + 3) max_date) as [L|G].
    - destruct (us_window d Hd) as (x & Hx & B); [unfold date_ok in *; lia|].
      destruct (us_first_within d x Hd ltac:(lia) B) as (c & F & C). exists c; split; auto; lia.
    - destruct (us_first_within d max_date Hd) as (c & F & C); [unfold date_ok in Hd; lia|apply us_last_isbd|].
      exists c; split; auto; lia. }
  exists c. split; auto. rewrite add0. apply seek_up_iff; auto.
Qed.

Lemma month_end d c : d < c <= d + 3 -> month c <> month d -> days_in_month (year d) (month d) < day d + (c - d).
Proof.
  intros H N. destruct (Z_lt_ge_dec (days_in_month (year d) (month d)) (day d + (c - d))); auto. exfalso.
  apply N. destruct (date_parts d) as (_ & D & _). destruct (shift_parts d (c - d)) as (_ & E & _); [lia|].
  replace (d + (c - d)) with c in E by lia. auto.
Qed.

(** ---- modified following: general part ---- *)
Lemma mf_spec cal d r : date_ok d -> modified_following_date_adjustment d cal = Ok r ->
  isbd cal r /\ exists c, first_on_after cal d c /\
    ((month c = month d /\ r = c) \/ (month c <> month d /\ prev_bd cal d r)).
Proof.
  intros Hd. unfold modified_following_date_adjustment. destruct (add_business_days d 0 cal) as [c|] eqn:E; cbn [bind]; [|discriminate].
  pose proof E as F. rewrite add0 in F. apply seek_up_iff in F; auto.
  destruct (month c =? month d) eqn:M.
  - intros [= <-]. split; [apply F|]. exists c. split; auto. left. split; auto. lia.
  - intros H. split; [eapply abd_isbd; eauto|]. exists c. split; auto. right. split; [lia|]. eapply abd_minus1; eauto.
Qed.

Lemma mf_fix cal d : isbd cal d -> modified_following_date_adjustment d cal = Ok d.
Proof.
  intros B. unfold modified_following_date_adjustment. rewrite add0, seek_self by auto. cbn [bind]. rewrite Z.eqb_refl. reflexivity.
Qed.

Lemma abd_minus1_ex cal d t p : date_ok d -> first_on_after cal d t -> prev_bd cal d p -> add_business_days d (-1) cal = Ok p.
Proof.
  intros Hd F P. apply abd_neg; auto; try lia. exists t. split; auto. change (Z.to_nat (- -1)) with 1%nat. cbn.
  exists p. split; auto. destruct F as (F1 & F2 & F3), P as (P1 & P2 & P3). repeat split; try lia; try apply P2.
  intros y Hy. destruct (Z_lt_ge_dec y d); [apply P3|apply F3]; lia.
Qed.

(** US: total, stays in the month *)
Lemma us_mf d : date_ok d -> exists r, modified_following_date_adjustment d US = Ok r /\ isbd US r /\
  year r = year d /\ month r = month d /\ d - 4 <= r <= d + 3.
Proof.
  intros Hd. destruct (us_following d Hd) as (c & E & F & L).
  unfold modified_following_date_adjustment. rewrite E. cbn [bind].
  destruct (date_parts d) as (M & D & _). pose proof (month_len (year d) (month d) M) as ML.
  destruct (month c =? month d) eqn:MC.
  - exists c. assert (d <= c) by apply F. repeat split; try lia; try apply F.
    destruct (date_parts c) as (Mc & Dc & _).
    (* same month number and at most 3 days apart: same year *)
    destruct (Z_le_gt_dec (day d + (c - d)) (days_in_month (year d) (month d))) as [A|A].
    + destruct (shift_parts d (c - d)) as (Y & _); [lia|]. replace (d + (c - d)) with c in Y by lia. auto.
    + exfalso. set (k := days_in_month (year d) (month d) - day d) in *.
      destruct (shift_parts d k) as (Y1 & M1 & D1); [lia|].
      assert (c = d + k + (c - d - k)) as Ec by lia.
      destruct (succ_parts (d + k)) as [(Q & _)|[(_ & Q & Y2 & M2 & D2)|(_ & Q & Y2 & M2 & D2)]].
      * rewrite Y1, M1, D1 in Q. lia.
      * destruct (shift_parts (d + k + 1) (c - d - k - 1)) as (_ & M3 & _).
        { rewrite D2. pose proof (month_len (year (d + k + 1)) (month (d + k + 1)) ltac:(lia)). lia. }
        replace (d + k + 1 + (c - d - k - 1)) with c in M3 by lia. lia.
      * destruct (shift_parts (d + k + 1) (c - d - k - 1)) as (_ & M3 & _).
        { rewrite D2. pose proof (month_len (year (d + k + 1)) (month (d + k + 1)) ltac:(lia)). lia. }
        replace (d + k + 1 + (c - d - k - 1)) with c in M3 by lia. lia.
  - assert (c <> d) by (intros ->; lia). assert (d <= c) by apply F.
    pose proof (month_end d c ltac:(lia) ltac:(lia)) as ME.
    assert (O4 : date_ok (d - 4)).
    { pose proof (date_ok_year d) as Y. unfold date_ok, min_date, max_date in *. 
      destruct (Z_le_gt_dec 5 d); [lia|]. exfalso.
      assert (C : d = 1 \/ d = 2 \/ d = 3 \/ d = 4) by lia.
      assert (X : day d <= 4) by (destruct C as [->|[->|[->| ->]]]; vm_compute; discriminate). lia. }
    destruct (us_window (d - 4) O4) as (x & Hx & B); [unfold date_ok in *; lia|].
    destruct (us_prev_within d x Hd ltac:(lia) B) as (p & P & Lp).
    exists p. rewrite (abd_minus1_ex US d c p Hd F P). assert (p < d) by apply P.
    destruct (shift_parts d (p - d)) as (Y1 & M1 & _); [lia|]. replace (d + (p - d)) with p in * by lia.
    repeat split; auto; try lia; apply P.
Qed.

Lemma between_month d d' c : d <= d' <= c -> year c = year d -> month c = month d -> year d' = year d /\ month d' = month d.
Proof.
  intros H Y M. pose proof (date_lt_lex d' d). pose proof (date_lt_lex c d').
  assert (~ d' < d) as N1 by lia. assert (~ c < d') as N2 by lia. rewrite H0 in N1. rewrite H1 in N2. lia.
Qed.

Lemma us_mf_mono d d' r r' : date_ok d -> date_ok d' -> d <= d' ->
  modified_following_date_adjustment d US = Ok r -> modified_following_date_adjustment d' US = Ok r' -> r <= r'.
Proof.
  intros Hd Hd' L E E'.
  destruct (us_mf d Hd) as (r0 & E0 & _ & Yr & Mr & _). assert (r0 = r) by congruence. subst r0.
  destruct (mf_spec US d r Hd E) as (B & c & F & C). destruct (mf_spec US d' r' Hd' E') as (B' & c' & F' & C').
  pose proof (first_mono US d d' c c' L F F') as Lc.
  destruct C as [[Mc ->]|[Mc P]], C' as [[Mc' ->]|[Mc' P']].
  - lia.
  - destruct (Z_lt_ge_dec c d') as [Q|Q].
    + (* c is a business day before d' *)
      destruct P' as (P1 & P2 & P3). destruct (Z_le_gt_dec c r'); auto. exfalso. apply (bd_excl US c); auto. apply P3; lia.
    + exfalso. assert (c' = c).
      { eapply first_unique; eauto. destruct F as (F1 & F2 & F3). repeat split; try lia; try apply F2. intros y Hy. apply F3. lia. }
      subst c'. destruct (between_month d d' c) as [_ M2]; auto; try lia.
  - destruct P as (P1 & _). assert (d' <= c') by apply F'. lia.
  - destruct P as (P1 & P2 & P3), P' as (P4 & P5 & P6). destruct (Z_le_gt_dec r r'); auto. exfalso. apply (bd_excl US r); auto. apply P6; lia.
Qed.

(** ---- settlement ---- *)
Lemma settle_isbd p c cal x : date_ok p -> calculate_settlement_date p c cal = Ok x -> isbd cal x.
Proof.
  intros Hp. destruct c; cbn [calculate_settlement_date]; try (intros H; eapply abd_isbd; eauto; fail); try discriminate.
  destruct (is_business_day p cal) as [[|]|] eqn:E; cbn [bind]; try discriminate.
  - intros [= <-]. split; auto.
  - intros H; eapply abd_isbd; eauto.
Qed.

Lemma settle_minus_zero p cal x : date_ok p -> calculate_settlement_date p T_MINUS_ZERO_BUSINESS cal = Ok x -> last_on_before cal p x.
Proof.
  intros Hp. cbn [calculate_settlement_date]. destruct (is_business_day p cal) as [[|]|] eqn:E; cbn [bind]; try discriminate.
  - intros [= <-]. repeat split; try lia; auto; apply Hp.
  - intros H. apply abd_minus1 in H; auto. destruct H as (A & B & C). repeat split; try lia; try apply B.
    intros y Hy. destruct (Z.eq_dec y p) as [->|]; [exact E|apply C; lia].
Qed.

Definition settle_n (c : settlement) : option Z :=
  match c with
  | T_MINUS_TWO_BUSINESS => Some (-2) | T_MINUS_ONE_BUSINESS => Some (-1) | T_PLUS_ZERO_BUSINESS => Some 0
  | T_PLUS_ONE_BUSINESS => Some 1 | T_PLUS_TWO_BUSINESS => Some 2 | T_PLUS_THREE_BUSINESS => Some 3
  | _ => None
  end.

Lemma settle_cases p c cal x : calculate_settlement_date p c cal = Ok x ->
  c = T_MINUS_ZERO_BUSINESS \/ exists n, settle_n c = Some n /\ add_business_days p n cal = Ok x.
Proof.
  destruct c; unfold calculate_settlement_date; intros E;
    [right; exists (-2); split; [reflexivity|exact E] | right; exists (-1); split; [reflexivity|exact E] | left; reflexivity
    | right; exists 0; split; [reflexivity|exact E] | right; exists 1; split; [reflexivity|exact E]
    | right; exists 2; split; [reflexivity|exact E] | right; exists 3; split; [reflexivity|exact E] | discriminate E | discriminate E | discriminate E | discriminate E].
Qed.

Lemma settle_mono p p' c cal x x' : date_ok p -> date_ok p' -> p <= p' ->
  calculate_settlement_date p c cal = Ok x -> calculate_settlement_date p' c cal = Ok x' -> x <= x'.
Proof.
  intros Hp Hp' L E E'. destruct (settle_cases _ _ _ _ E) as [->|[n [N A]]].
  - exact (last_mono cal p p' x x' L (settle_minus_zero p cal x Hp E) (settle_minus_zero p' cal x' Hp' E')).
  - destruct (settle_cases _ _ _ _ E') as [->|[n' [N' A']]]; [discriminate N|].
    rewrite N in N'. injection N' as <-. eapply (abd_mono cal n p p'); eauto.
Qed.

(** ---- date grids ---- *)
Definition in_dir (up : bool) (e x : date) : bool := if up then x <=? e else e <=? x.

(** Length is maximal: the grid is the longest prefix of start, start+k, ... of at most n entries within the end. *)
Lemma grid_timedelta n : forall up d e k us l, grid_loop n up d e (Timedelta k us) = Ok l ->
  l = List.map (fun i => d + Z.of_nat i * k) (seq 0 (List.length l)) /\
  Forall (fun x => in_dir up e x = true) l /\
  (List.length l = n \/ in_dir up e (d + Z.of_nat (List.length l) * k) = false) /\ (List.length l <= n)%nat.
Proof.
  induction n as [|n IH]; intros up d e k us l; cbn [grid_loop].
  - intros [= <-]. cbn. auto.
  - destruct (if up then d <=? e else e <=? d) eqn:C.
    + cbn [add_increment]. destruct (add_days d k) as [d'|] eqn:A; cbn [bind]; [|discriminate].
      destruct (grid_loop n up d' e (Timedelta k us)) as [r|] eqn:G; cbn [bind]; [|discriminate].
      intros [= <-]. apply add_days_ok in A. destruct A as [-> _].
      destruct (IH _ _ _ _ _ _ G) as (E1 & F & M & L). cbn [List.length]. repeat split.
      * cbn [seq List.map]. f_equal; [cbn; lia|]. rewrite <- seq_shift, map_map. rewrite E1 at 1.
        apply map_ext. intros j. rewrite Nat2Z.inj_succ. lia.
      * constructor; auto.
      * destruct M as [M|M]; [left; lia|right]. rewrite Nat2Z.inj_succ. rewrite <- M. f_equal. lia.
      * lia.
    + intros [= <-]. cbn [List.length seq List.map]. repeat split; auto; try lia. right.
      replace (d + Z.of_nat 0 * k) with d by lia. exact C.
Qed.

(** Month grids from a day of month <= 28. *)
Lemma add_months_28 d k x : day d <= 28 -> add_months d k = Ok x ->
  date_ok x /\ day x = day d /\ year x * 12 + month x = year d * 12 + month d + k.
Proof.
  intros D A. destruct (add_months_parts _ _ _ A) as (O & YM & DD). destruct (date_parts x) as (M & _).
  pose proof (month_len (year x) (month x) M). repeat split; auto; try apply O. lia.
Qed.

Lemma add_months_comp d j k x y : day d <= 28 -> add_months d j = Ok x -> add_months x k = Ok y -> add_months d (j + k) = Ok y.
Proof.
  intros D A B. destruct (add_months_28 _ _ _ D A) as (O1 & D1 & M1).
  apply add_months_ok in B. destruct B as (y' & m' & E & Bm & By & ->). apply add_months_ok.
  exists y', m'. repeat split; auto; try lia. rewrite D1. reflexivity.
Qed.

Lemma add_months_0 d : date_ok d -> add_months d 0 = Ok d.
Proof.
  intros O. apply add_months_ok. destruct (date_parts d) as (M & D & E & _). apply date_ok_year in O.
  exists (year d), (month d). repeat split; try lia. rewrite Z.min_l by lia. auto.
Qed.

Lemma grid_months n : forall up d e k l, date_ok d -> day d <= 28 -> grid_loop n up d e (Relativedelta k 0) = Ok l ->
  forall i x, nth_error l i = Some x -> add_months d (Z.of_nat i * k) = Ok x.
Proof.
  induction n as [|n IH]; intros up d e k l O D; cbn [grid_loop].
  - intros [= <-] i x. destruct i; discriminate.
  - destruct (if up then d <=? e else e <=? d) eqn:C.
    + cbn [add_increment]. destruct (add_months d k) as [d'|] eqn:A; cbn [bind]; [|discriminate].
      destruct (add_days d' 0) as [d''|] eqn:A0; cbn [bind]; [|discriminate].
      apply add_days_ok in A0. destruct A0 as [-> O']. rewrite Z.add_0_r in *.
      destruct (grid_loop n up d' e (Relativedelta k 0)) as [r|] eqn:G; cbn [bind]; [|discriminate].
      intros [= <-]. destruct (add_months_28 _ _ _ D A) as (O1 & D1 & M1).
      intros [|i] x; cbn [nth_error].
      * intros [= <-]. apply add_months_0; auto.
      * intros N. apply (IH _ _ _ _ _ O1 ltac:(lia) G) in N.
        replace (Z.of_nat (S i) * k) with (k + Z.of_nat i * k) by lia. eapply add_months_comp; eauto.
    + intros [= <-] i x. destruct i; discriminate.
Qed.

(** Every grid starts at the start date (if in range), stays within the end, and consecutive dates differ by the increment. *)
Lemma grid_chain n : forall up d e i l, grid_loop n up d e i = Ok l ->
  (List.length l <= n)%nat /\
  Forall (fun x => (if up then x <=? e else e <=? x) = true) l /\
  (forall j x y, nth_error l j = Some x -> nth_error l (S j) = Some y -> add_increment x i = Ok y) /\
  (l <> [] -> nth_error l 0 = Some d) /\
  (forall x, nth_error l (List.length l - 1) = Some x -> (List.length l < n)%nat ->
     exists y, add_increment x i = Ok y /\ (if up then y <=? e else e <=? y) = false).
Proof.
  induction n as [|n IH]; intros up d e i l; cbn [grid_loop].
  - intros [= <-]. repeat split; auto; try (cbn; lia); try congruence; intros [|j] *; discriminate.
  - destruct (if up then d <=? e else e <=? d) eqn:C.
    + destruct (add_increment d i) as [d'|] eqn:A; cbn [bind]; [|discriminate].
      destruct (grid_loop n up d' e i) as [r|] eqn:G; cbn [bind]; [|discriminate].
      intros [= <-]. destruct (IH _ _ _ _ _ G) as (L & F & ST & H & T). repeat split.
      * cbn. lia.
      * constructor; auto.
      * intros [|j] x y; cbn [nth_error].
        -- intros [= <-] N. assert (r <> []) as NE by (destruct r; discriminate || congruence).
           specialize (H NE). change (nth_error r 0 = Some y) in N. congruence.
        -- apply ST.
      * intros x N LT. cbn [List.length] in *. destruct r as [|r0 r].
        -- cbn in N. injection N as <-. exists d'. split; auto. destruct n as [|n]; [cbn in LT; lia|].
           cbn [grid_loop] in G. destruct (if up then d' <=? e else e <=? d') eqn:C'; auto.
           destruct (add_increment d' i); cbn [bind] in G; [|discriminate]. destruct (grid_loop n up a e i); cbn [bind] in G; discriminate.
        -- apply T; [|lia]. cbn [List.length] in *. replace (S (S (Datatypes.length r)) - 1)%nat with (S (S (Datatypes.length r) - 1)) in N by lia.
           exact N.
    + intros [= <-]. repeat split; auto; try (cbn; lia); try congruence; cbn; try discriminate.
Qed.
