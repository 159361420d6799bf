(** Sample paths: C48-C51, C65. *)
From Verif Require Import Base PyDate PyDateFacts DayCount DayCountFacts PyList KeyRate Curve CurveFacts Loan P_DayCount RVec Stochastic StochasticFacts.
From Coq Require Import Reals Lra Lqa Permutation.
Open Scope Z_scope.
Ltac lra := first [Lra.lra | Lqa.lra].
Ltac nra := first [Lra.nra | Lqa.nra].

(** ---- C48 ---- *)
(** A time grid from s to e by the step i: consecutive times differ by the step, except that the end is appended when
    the next step would pass it (or after 1000001 points). *)
Record time_grid (s e : datetime) (i : dt_step) (g : list datetime) : Prop := {
  tg_first : nth_error g 0 = Some s;
  tg_last : nth_error g (List.length g - 1) = Some e;
  tg_increasing : forall j k x y, (j < k)%nat -> nth_error g j = Some x -> nth_error g k = Some y -> dt_abs x < dt_abs y;
  tg_valid : forall x, In x g -> datetime_ok x /\ dt_abs s <= dt_abs x <= dt_abs e;
  tg_step : forall k x y, nth_error g k = Some x -> nth_error g (S k) = Some y ->
     add_step x i = Ok y \/ (y = e /\ (Z.of_nat k = 1000000 \/ exists z, add_step x i = Ok z /\ dt_abs e < dt_abs z))
}.

Lemma nth_last_app {A} (l : list A) a : nth_error (l ++ [a]) (List.length (l ++ [a]) - 1) = Some a.
Proof. rewrite app_length. cbn [List.length]. replace (List.length l + 1 - 1)%nat with (List.length l) by lia. rewrite nth_error_app2 by lia. rewrite Nat.sub_diag. reflexivity. Qed.

Lemma columns_nth b draw dts : forall k0 k, nth_error (columns_from b draw k0 dts) k = option_map (increment_column b draw (k0 + k)) (nth_error dts k).
Proof.
  induction dts as [|d dts IH]; intros k0 k; [destruct k; reflexivity|]. destruct k as [|k]; cbn [columns_from nth_error option_map]; [rewrite Nat.add_0_r; reflexivity|].
  rewrite IH. replace (S k0 + k)%nat with (k0 + S k)%nat by lia. reflexivity.
Qed.
Lemma columns_length b draw dts : forall k0, List.length (columns_from b draw k0 dts) = List.length dts.
Proof. induction dts as [|d dts IH]; intros k0; cbn; auto. Qed.

Lemma F2_nth {A B} (P : A -> B -> Prop) l l' : Forall2 P l l' -> List.length l = List.length l' /\ forall k a b, nth_error l k = Some a -> nth_error l' k = Some b -> P a b.
Proof.
  induction 1 as [|a b l l' H F [L IH]]; [split; [reflexivity|intros [|k]; discriminate]|]. split; [cbn; lia|].
  intros [|k] x y; cbn; [intros [= <-] [= <-]; exact H|apply IH].
Qed.

(** what generate_increments does to the object, and returns *)
Lemma generate_inv b dt draw b' incs dts : forward dt -> datetime_ok (bm_start b) -> datetime_ok (bm_end b) -> dt_abs (bm_start b) <= dt_abs (bm_end b) ->
  generate_increments b dt draw = (b', Ok (incs, dts)) ->
  exists g, b' = set_dts (set_times b g) dts /\ time_grid (bm_start b) (bm_end b) dt g /\ List.length g = S (List.length dts) /\ incs = columns_from b draw 0 dts /\
    forall k x y q, nth_error g k = Some x -> nth_error g (S k) = Some y -> nth_error dts k = Some q -> compute_accrual_length (Stamp x) (Stamp y) (bm_dcc b) = Ok q.
Proof.
  intros F Os Oe L. unfold generate_increments. destruct (generate_datetimes (bm_start b) (bm_end b) dt 1000000) as [g0|] eqn:G; [|intros; discriminate].
  unfold generate_datetimes in G. destruct (step_positive (bm_start b) dt) as [up|] eqn:Sp; cbn [bind] in G; [|discriminate].
  apply step_positive_forward in Sp; [|exact F|exact Os]. subst up. apply dt_grid_facts in G; [|exact F|exact Os]. destruct G as [P1 _ P3 P4 P5 P6].
  change (1000000 + 1) with 1000001 in *. specialize (P1 L ltac:(lia)).
  assert (Lg0 : (0 < List.length g0)%nat) by (apply nth_error_Some; congruence).
  destruct (nth_error g0 (List.length g0 - 1)) as [last|] eqn:El; [|intros; discriminate].
  specialize (P6 last eq_refl). set (g := if dt_ltb last (bm_end b) then g0 ++ [bm_end b] else g0).
  destruct (mapM _ (pairwise g)) as [ds|] eqn:M; [|intros; discriminate]. intros [= <- <- <-].
  apply mapM_Forall2 in M. destruct (F2_nth _ _ _ M) as [Ld Hd]. rewrite pairwise_length' in Ld.
  assert (Lg : (0 < List.length g)%nat) by (unfold g; destruct (dt_ltb _ _); [rewrite app_length; cbn|]; lia).
  exists g. split; [reflexivity|].
  assert (In0 : In last g0) by (eapply nth_error_In; eauto). destruct (P4 _ In0) as [Ol Bl].
  assert (Inc0 : grid_increasing g0).
  { apply steps_increasing. intros i x y X Y. pose proof (P3 _ _ _ X Y) as St. apply nth_error_In in X. destruct (P4 _ X) as [Ox _]. destruct (add_step_forward _ _ _ F Ox St). lia. }
  assert (TG : time_grid (bm_start b) (bm_end b) dt g).
  { unfold g, dt_ltb. destruct (dt_abs last <? dt_abs (bm_end b)) eqn:C.
    - split.
      + rewrite nth_error_app1 by lia. exact P1.
      + apply nth_last_app.
      + apply steps_increasing. intros i x y X Y. destruct (Nat.lt_trichotomy (S i) (List.length g0)) as [H|[H|H]].
        * rewrite nth_error_app1 in X, Y by lia. eapply Inc0; [|exact X|exact Y]. lia.
        * rewrite nth_error_app1 in X by lia. rewrite nth_error_app2 in Y by lia. replace (S i - List.length g0)%nat with 0%nat in Y by lia. injection Y as <-.
          replace (List.length g0 - 1)%nat with i in El by lia. rewrite X in El. injection El as ->. lia.
        * exfalso. assert (S i < List.length (g0 ++ [bm_end b]))%nat by (apply nth_error_Some; congruence). rewrite app_length in *. cbn in *. lia.
      + intros x I. apply in_app_or in I. destruct I as [I|[<-|[]]]; [apply P4, I|]. split; [exact Oe|lia].
      + intros k x y X Y. destruct (Nat.lt_trichotomy (S k) (List.length g0)) as [H|[H|H]].
        * rewrite nth_error_app1 in X, Y by lia. left. eapply P3; eauto.
        * rewrite nth_error_app1 in X by lia. rewrite nth_error_app2 in Y by lia. replace (S k - List.length g0)%nat with 0%nat in Y by lia. injection Y as <-.
          replace (List.length g0 - 1)%nat with k in El by lia. rewrite X in El. injection El as ->. right. split; [reflexivity|]. destruct P6 as [P6|P6]; [left; lia|right; exact P6].
        * exfalso. assert (S k < List.length (g0 ++ [bm_end b]))%nat by (apply nth_error_Some; congruence). rewrite app_length in *. cbn in *. lia.
    - split; auto.
      + rewrite El. f_equal. apply dt_abs_inj; [apply Ol|apply Oe|lia].
      + intros k x y X Y. left. eapply P3; eauto. }
  split; [exact TG|]. split; [lia|]. split; [reflexivity|].
  intros k x y q X Y Q. apply (Hd k (x, y) q); [|exact Q]. apply pairwise_nth'. auto.
Qed.

(** The state and result of generate_path (and of the increments the other processes use). *)
Theorem C48_grid : forall b dt draw b' incs dts, forward dt -> datetime_ok (bm_start b) -> datetime_ok (bm_end b) -> dt_abs (bm_start b) <= dt_abs (bm_end b) ->
  generate_increments b dt draw = (b', Ok (incs, dts)) ->
  exists g, bm_times b' = Some g /\ bm_dts b' = Some dts /\ bm_path b' = bm_path b /\ time_grid (bm_start b) (bm_end b) dt g /\
    List.length g = S (List.length dts) /\ List.length incs = List.length dts /\
    (forall k x y q, nth_error g k = Some x -> nth_error g (S k) = Some y -> nth_error dts k = Some q -> compute_accrual_length (Stamp x) (Stamp y) (bm_dcc b) = Ok q) /\
    (forall k q v i, nth_error dts k = Some q -> nth_error incs k = Some v -> v i = (sqrt (Q2R q) * sumn (bm_dim b) (fun j => bm_chol b i j * draw k j))%R).
Proof.
  intros b dt draw b' incs dts F Os Oe L E. destruct (generate_inv _ _ _ _ _ _ F Os Oe L E) as (g & -> & TG & Lg & -> & A). exists g.
  split; [reflexivity|]. split; [reflexivity|]. split; [reflexivity|]. split; [exact TG|]. split; [exact Lg|]. split; [apply columns_length|]. split; [exact A|].
  intros k q v i Q V. rewrite columns_nth, Q in V. cbn [option_map Nat.add] in V. injection V as <-. unfold increment_column, mvec, dot.
  rewrite <- sumn_scal. apply sumn_ext. intros. ring.
Qed.
Print Assumptions C48_grid.

(** Generation succeeds when the end plus one step is a valid time and the day count is defined on the interval. *)
Lemma dt_grid_total n : forall t e i, forward i -> datetime_ok t -> datetime_ok e ->
  (forall x, datetime_ok x -> dt_abs x <= dt_abs e -> exists y, add_step x i = Ok y) -> exists g, dt_grid_loop n true t e i = Ok g.
Proof.
  induction n as [|n IH]; intros t e i F O Oe H; cbn [dt_grid_loop]; [eauto|]. unfold dt_leb. destruct (dt_abs t <=? dt_abs e) eqn:C; [|eauto].
  destruct (H t O ltac:(lia)) as [t' A]. rewrite A. cbn [bind]. destruct (add_step_forward _ _ _ F O A) as [O' _].
  destruct (IH t' e i F O' Oe H) as [g ->]. cbn [bind]. eauto.
Qed.

Theorem C48_total : forall b u draw, 0 < u -> stamp_ok (bm_dcc b) (bm_start b) -> stamp_ok (bm_dcc b) (bm_end b) -> dt_abs (bm_start b) <= dt_abs (bm_end b) ->
  (exists t, add_us (bm_end b) u = Ok t) -> exists b' r, generate_increments b (StepTimedelta u) draw = (b', Ok r).
Proof.
  intros b u draw U (Os & Ls & Ys) (Oe & Le & Ye) L (te & Te).
  assert (F : forward (StepTimedelta u)) by exact U.
  destruct (dt_grid_total (Z.to_nat 1000001) (bm_start b) (bm_end b) (StepTimedelta u) F Os Oe) as [g0 G].
  { intros x Ox Lx. cbn [add_step]. unfold add_us in *. destruct (_ && _) eqn:C in Te; [|discriminate]. apply andb_prop in C. destruct C as [C1 C2].
    assert (D1 : (dt_abs x + u) / us_per_day <= (dt_abs (bm_end b) + u) / us_per_day) by (apply Z.div_le_mono; [reflexivity|lia]).
    assert (D2 : min_date <= (dt_abs x + u) / us_per_day). { apply Z.div_le_lower_bound; [reflexivity|]. destruct Ox as [[Ox _] Ux]. unfold dt_abs. unfold min_date, us_per_day in *. lia. }
    replace (_ && _) with true by lia. eauto. }
  unfold generate_increments, generate_datetimes. cbn [step_positive]. replace (0 <=? u) with true by lia. cbn [bind]. change (1000000 + 1) with 1000001. rewrite G.
  apply dt_grid_facts in G; [|exact F|exact Os]. destruct G as [P1 _ P3 P4 P5 P6]. specialize (P1 L ltac:(lia)).
  assert (Lg0 : (0 < List.length g0)%nat) by (apply nth_error_Some; congruence).
  destruct (nth_error g0 (List.length g0 - 1)) as [last|] eqn:El; [|apply nth_error_None in El; lia].
  set (g := if dt_ltb last (bm_end b) then g0 ++ [bm_end b] else g0).
  assert (V : forall x, In x g -> stamp_ok (bm_dcc b) x).
  { intros x I. assert (I' : In x g0 \/ x = bm_end b) by (unfold g in I; destruct (dt_ltb _ _); [apply in_app_or in I; cbn in I; intuition|auto]).
    destruct I' as [I'| ->]; [|split; auto]. destruct (P4 x I') as [Ox Bx]. split; [exact Ox|]. split.
    - pose proof (dt_abs_date x (bm_end b) Ox Oe ltac:(lia)). lia.
    - intros C. specialize (Ys C). pose proof (dt_abs_date (bm_start b) x Os Ox ltac:(lia)). pose proof (year_mono (dt_date (bm_start b)) (dt_date x) ltac:(lia)). lia. }
  assert (Od : forall i x y, nth_error g i = Some x -> nth_error g (S i) = Some y -> dt_abs x <= dt_abs y).
  { assert (Inc0 : forall i x y, nth_error g0 i = Some x -> nth_error g0 (S i) = Some y -> dt_abs x <= dt_abs y).
    { intros i x y X Y. pose proof (P3 _ _ _ X Y) as St. apply nth_error_In in X. destruct (P4 _ X) as [Ox _]. destruct (add_step_forward _ _ _ F Ox St). lia. }
    unfold g, dt_ltb. destruct (dt_abs last <? dt_abs (bm_end b)) eqn:C; [|exact Inc0]. intros i x y X Y.
    destruct (Nat.lt_trichotomy (S i) (List.length g0)) as [H|[H|H]].
    - rewrite nth_error_app1 in X, Y by lia. eauto.
    - rewrite nth_error_app1 in X by lia. rewrite nth_error_app2 in Y by lia. replace (S i - List.length g0)%nat with 0%nat in Y by lia. injection Y as <-.
      apply nth_error_In in X. destruct (P4 _ X). lia.
    - exfalso. assert (S i < List.length (g0 ++ [bm_end b]))%nat by (apply nth_error_Some; congruence). rewrite app_length in *. cbn in *. lia. }
  assert (M : exists ds, mapM (fun p => compute_accrual_length (Stamp (fst p)) (Stamp (snd p)) (bm_dcc b)) (pairwise g) = Ok ds).
  { assert (H : forall p, In p (pairwise g) -> exists q, compute_accrual_length (Stamp (fst p)) (Stamp (snd p)) (bm_dcc b) = Ok q).
    { intros p I. apply In_nth_error in I. destruct I as [k I]. apply pairwise_nth' in I. destruct I as [X Y]. apply accrual_total; [apply V; eapply nth_error_In; eauto|apply V; eapply nth_error_In; eauto|eauto]. }
    clear -H. induction (pairwise g) as [|p l IH]; cbn [mapM]; [eauto|]. destruct (H p (or_introl eq_refl)) as [q ->]. cbn [bind].
    destruct IH as [ds ->]; [intros; apply H; right; auto|]. cbn [bind]. eauto. }
  destruct M as [ds M]. rewrite M. eauto.
Qed.
Print Assumptions C48_total.
(** datetime + timedelta: the datetime that many microseconds away when years 1 to 9999 have one, OverflowError otherwise *)
Theorem C48_add_timedelta : forall t n, datetime_ok t ->
  (forall t', add_us t n = Ok t' <-> datetime_ok t' /\ dt_abs t' = dt_abs t + n) /\
  (add_us t n = Err OverflowError <-> (dt_abs t + n < 1 * 86400000000 \/ 3652060 * 86400000000 <= dt_abs t + n)).
Proof.
  intros t n [Od Ou]. pose proof (Z.div_mod (dt_abs t + n) us_per_day ltac:(discriminate)) as D. pose proof (Z.mod_pos_bound (dt_abs t + n) us_per_day eq_refl) as M.
  change us_per_day with 86400000000 in *. unfold add_us. change us_per_day with 86400000000. unfold min_date, max_date. set (q := (dt_abs t + n) / 86400000000) in *. set (r := (dt_abs t + n) mod 86400000000) in *.
  split.
  - intros t'. split.
    + intros H. apply (add_us_spec t n t'); [exact Ou|]. exact H.
    + intros [[O1 O2] E]. unfold date_ok, min_date, max_date in O1. assert (E' : t' = DT q r).
      { destruct t' as [d w]. unfold dt_abs at 1 in E. cbn [dt_date dt_us] in *. change us_per_day with 86400000000 in *. assert (d = q) by lia. subst d. f_equal. lia. }
      subst t'. cbn [dt_date] in O1. replace (_ && _) with true by lia. reflexivity.
  - destruct (_ && _) eqn:C; split; intros H; try discriminate; try reflexivity; exfalso + idtac; lia.
Qed.
Print Assumptions C48_add_timedelta.

Lemma cumsum_spec incs : forall v, List.length (cumsum v incs) = S (List.length incs) /\ nth_error (cumsum v incs) 0 = Some v /\
  forall k x y d i, nth_error (cumsum v incs) k = Some x -> nth_error (cumsum v incs) (S k) = Some y -> nth_error incs k = Some d -> y i = (x i + d i)%R.
Proof.
  induction incs as [|d incs IH]; intros v; cbn [cumsum].
  - split; [reflexivity|]. split; [reflexivity|]. intros [|k] x y d i; discriminate.
  - destruct (IH (fun i => v i + d i)%R) as (L & H0 & H). split; [cbn [List.length]; rewrite L; reflexivity|]. split; [reflexivity|].
    intros [|k] x y d' i; cbn [nth_error].
    + intros [= <-] Y [= <-]. cbn [nth_error] in H0. rewrite H0 in Y. injection Y as <-. reflexivity.
    + apply H.
Qed.

(** A Brownian path starts at 0 and each step adds sqrt(dt) L z. *)
Theorem C48_path : forall b dt set draw b' p, forward dt -> datetime_ok (bm_start b) -> datetime_ok (bm_end b) -> dt_abs (bm_start b) <= dt_abs (bm_end b) ->
  bm_generate_path b dt set draw = (b', Ok p) ->
  exists g dts, bm_times b' = Some g /\ bm_path b' = (if set then Some p else bm_path b) /\ time_grid (bm_start b) (bm_end b) dt g /\
    List.length p = List.length g /\ List.length g = S (List.length dts) /\
    (forall k x y q, nth_error g k = Some x -> nth_error g (S k) = Some y -> nth_error dts k = Some q -> compute_accrual_length (Stamp x) (Stamp y) (bm_dcc b) = Ok q) /\
    (forall v i, nth_error p 0 = Some v -> v i = 0%R) /\
    (forall k q v w i, nth_error dts k = Some q -> nth_error p k = Some v -> nth_error p (S k) = Some w ->
        w i = (v i + sqrt (Q2R q) * sumn (bm_dim b) (fun j => bm_chol b i j * draw k j))%R).
Proof.
  intros b dt set draw b' p F Os Oe L E. unfold bm_generate_path in E. destruct (generate_increments b dt draw) as [b1 [[incs dts]|]] eqn:G; [|discriminate].
  destruct (C48_grid _ _ _ _ _ _ F Os Oe L G) as (g & T1 & T2 & T3 & TG & Lg & Li & Ac & Cl).
  injection E as <- <-. destruct (cumsum_spec incs (fun _ => 0%R)) as (Lc & C0 & Cs). exists g, dts.
  split; [destruct set; exact T1|]. split; [destruct set; [reflexivity|exact T3]|]. split; [exact TG|]. split; [lia|]. split; [lia|]. split; [exact Ac|]. split.
  - intros v i V. rewrite C0 in V. injection V as <-. reflexivity.
  - intros k q v w i Q V W. destruct (nth_error incs k) as [d|] eqn:D; [|apply nth_error_None in D; assert (k < List.length dts)%nat by (apply nth_error_Some; congruence); lia].
    rewrite (Cs k v w d i V W D), (Cl k q d i Q D). reflexivity.
Qed.
Print Assumptions C48_path.

(** After generate_path(set_path=True), calling the object on a grid time gives that column, and outside the span raises. *)
Theorem C48_evaluation : forall b dt draw b' p, forward dt -> datetime_ok (bm_start b) -> datetime_ok (bm_end b) -> dt_abs (bm_start b) <= dt_abs (bm_end b) ->
  bm_generate_path b dt true draw = (b', Ok p) ->
  exists g, bm_times b' = Some g /\ List.length p = List.length g /\ nth_error g 0 = Some (bm_start b) /\ nth_error g (List.length g - 1) = Some (bm_end b) /\
    (forall k x v, nth_error g k = Some x -> nth_error p k = Some v -> bm_call b' x = Ok v) /\
    (forall x, dt_abs x < dt_abs (bm_start b) \/ dt_abs (bm_end b) < dt_abs x -> bm_call b' x = Err ValueError).
Proof.
  intros b dt draw b' p F Os Oe L E. destruct (C48_path _ _ _ _ _ _ F Os Oe L E) as (g & dts & T1 & T2 & TG & Lp & _).
  assert (Sb : bm_start b' = bm_start b /\ bm_end b' = bm_end b /\ bm_dcc b' = bm_dcc b).
  { unfold bm_generate_path in E. destruct (generate_increments b dt draw) as [b1 [[incs ds]|]] eqn:G; [|discriminate].
    destruct (generate_inv _ _ _ _ _ _ F Os Oe L G) as (g' & -> & _). injection E as <- <-. auto. }
  destruct Sb as (S1 & S2 & S3). exists g. split; [exact T1|]. split; [exact Lp|]. destruct TG as [G1 G2 G3 G4 G5]. split; [exact G1|]. split; [exact G2|]. split.
  - intros k x v X V. unfold bm_call. rewrite T1, T2. eapply call_on_grid; eauto. rewrite S1, S2. apply G4. eapply nth_error_In; eauto.
  - intros x B. unfold bm_call. rewrite T2. apply call_outside. rewrite S1, S2. exact B.
Qed.
Print Assumptions C48_evaluation.

(** Before any path is stored, whatever was generated without storing, the call raises ValueError. *)
Fixpoint generate_all (b : brownian) (ops : list (dt_step * (nat -> vec))) : brownian :=
  match ops with [] => b | (dt, draw) :: ops => generate_all (fst (bm_generate_path b dt false draw)) ops end.
Theorem C48_before_generation : forall s e n L c ops x, bm_call (generate_all (new_brownian s e n L c) ops) x = Err ValueError.
Proof.
  intros s e n L c ops x. assert (H : forall ops b, bm_path b = None -> bm_path (generate_all b ops) = None).
  { induction ops0 as [|[dt draw] ops0 IH]; intros b Hb; cbn [generate_all]; [exact Hb|]. apply IH. unfold bm_generate_path, generate_increments.
    destruct (generate_datetimes _ _ _ _) as [g|]; [|exact Hb]. destruct (nth_error g _) as [la|]; [|exact Hb]. destruct (mapM _ _); exact Hb. }
  unfold bm_call. rewrite (H ops (new_brownian s e n L c) eq_refl). reflexivity.
Qed.
Print Assumptions C48_before_generation.

(** ---- C49 ---- *)
(** Strictly between two neighbouring grid times, [since] years after the earlier one and [left] before the later one
    (both positive unless 30/360 is used), the value mixes the two columns with the weights exchanged. *)
Theorem C49_between : forall b dt draw b' p g k gl gu x prev nxt, forward dt -> bm_dcc b <> THIRTY360 -> stamp_ok (bm_dcc b) (bm_start b) -> stamp_ok (bm_dcc b) (bm_end b) ->
  bm_generate_path b dt true draw = (b', Ok p) -> dt_abs (bm_start b) <= dt_abs (bm_end b) -> bm_times b' = Some g ->
  nth_error g k = Some gl -> nth_error g (S k) = Some gu -> nth_error p k = Some prev -> nth_error p (S k) = Some nxt ->
  datetime_ok x -> dt_abs gl < dt_abs x < dt_abs gu ->
  exists since left v, compute_accrual_length (Stamp gl) (Stamp x) (bm_dcc b) = Ok since /\ compute_accrual_length (Stamp x) (Stamp gu) (bm_dcc b) = Ok left /\
    (0 < Q2R since)%R /\ (0 < Q2R left)%R /\ bm_call b' x = Ok v /\
    forall i, v i = ((Q2R left * nxt i + Q2R since * prev i) / (Q2R since + Q2R left))%R /\ (Rmin (prev i) (nxt i) <= v i <= Rmax (prev i) (nxt i))%R /\
      (* the linear interpolation would weigh prev by left and nxt by since *)
      (v i = ((Q2R left * prev i + Q2R since * nxt i) / (Q2R since + Q2R left))%R <-> prev i = nxt i \/ Q2R since = Q2R left).
Proof.
  intros b dt draw b' p g k gl gu x prev nxt F NC Ss Se E L Tg Kl Ku Pl Pu Ox B.
  destruct (C48_path _ _ _ _ _ _ F (proj1 Ss) (proj1 Se) L E) as (g' & dts & T1 & T2 & TG & Lp & _). rewrite Tg in T1. injection T1 as <-.
  assert (Sb : bm_start b' = bm_start b /\ bm_end b' = bm_end b /\ bm_dcc b' = bm_dcc b).
  { unfold bm_generate_path in E. destruct (generate_increments b dt draw) as [b1 [[incs ds]|]] eqn:G; [|discriminate].
    destruct (generate_inv _ _ _ _ _ _ F (proj1 Ss) (proj1 Se) L G) as (g' & -> & _). injection E as <- <-. auto. }
  destruct Sb as (S1 & S2 & S3). destruct TG as [G1 G2 G3 G4 G5].
  destruct (G4 gl (nth_error_In _ _ Kl)) as [Ol Bl]. destruct (G4 gu (nth_error_In _ _ Ku)) as [Ou Bu].
  assert (St : forall y, datetime_ok y -> dt_abs (bm_start b) <= dt_abs y <= dt_abs (bm_end b) -> stamp_ok (bm_dcc b) y).
  { intros y Oy By. destruct Ss as (Os & Ls & Ys), Se as (Oe & Le & Ye). split; [exact Oy|]. split.
    - pose proof (dt_abs_date y _ Oy Oe ltac:(lia)). lia.
    - intros C. specialize (Ys C). pose proof (dt_abs_date _ y Os Oy ltac:(lia)) as H. pose proof (year_mono _ _ H). lia. }
  pose proof (St gl Ol Bl) as Sl. pose proof (St gu Ou Bu) as Su. pose proof (St x Ox ltac:(lia)) as Sx.
  destruct (accrual_total _ gl x Sl Sx ltac:(lia)) as [a A]. destruct (accrual_total _ x gu Sx Su ltac:(lia)) as [c C].
  pose proof (accrual_positive _ _ _ _ NC Sl Sx ltac:(lia) A) as Pa. pose proof (accrual_positive _ _ _ _ NC Sx Su ltac:(lia) C) as Pc.
  pose proof (call_between x (bm_start b) (bm_end b) (bm_dcc b) g p k gl gu prev nxt a c G3 Kl Ku Pl Pu B ltac:(lia) ltac:(lia) A C) as H.
  replace (Qeq_bool (c + a) 0) with false in H by (symmetry; apply not_true_is_false; rewrite Qeq_bool_iff; lra).
  assert (Ra : (0 < Q2R a)%R) by (replace 0%R with (Q2R 0) by (unfold Q2R; cbn; lra); apply Qlt_Rlt; exact Pa).
  assert (Rc : (0 < Q2R c)%R) by (replace 0%R with (Q2R 0) by (unfold Q2R; cbn; lra); apply Qlt_Rlt; exact Pc).
  assert (W : Q2R (c / (c + a)) = (Q2R c / (Q2R a + Q2R c))%R) by (rewrite Q2R_div, Q2R_plus by lra; f_equal; ring).
  rewrite W in H. exists a, c. eexists. split; [exact A|]. split; [exact C|]. split; [exact Ra|]. split; [exact Rc|].
  split; [unfold bm_call; rewrite Tg, T2, S1, S2, S3; exact H|]. intros i. cbv beta.
  set (ra := Q2R a) in *. set (rc := Q2R c) in *. set (u := prev i). set (w := nxt i). clearbody ra rc u w. clear -Ra Rc.
  assert (V : (w * (rc / (ra + rc)) + u * (1 - rc / (ra + rc)) = (rc * w + ra * u) / (ra + rc))%R) by (field; lra).
  split; [exact V|]. split.
  - rewrite V. assert (P : (0 < ra + rc)%R) by lra. split; [apply Rmult_le_reg_r with (ra + rc)%R|apply Rmult_le_reg_r with (ra + rc)%R]; try exact P;
      replace ((rc * w + ra * u) / (ra + rc) * (ra + rc))%R with (rc * w + ra * u)%R by (field; lra).
    + pose proof (Rmin_l u w). pose proof (Rmin_r u w). nra.
    + pose proof (Rmax_l u w). pose proof (Rmax_r u w). nra.
  - rewrite V. split.
    + intros Q. assert (Q' : ((rc - ra) * (w - u) = 0)%R).
      { apply (f_equal (fun z => z * (ra + rc))%R) in Q. replace ((rc * w + ra * u) / (ra + rc) * (ra + rc))%R with (rc * w + ra * u)%R in Q by (field; lra).
        replace ((rc * u + ra * w) / (ra + rc) * (ra + rc))%R with (rc * u + ra * w)%R in Q by (field; lra). nra. }
      apply Rmult_integral in Q'. destruct Q'; [right|left]; lra.
    + intros [-> | ->]; f_equal; ring.
Qed.
Print Assumptions C49_between.

(** ---- C65 ---- *)
(** Whatever the ensemble of draws (weights w, M members) with uncorrelated unit second moments at step k, the increments
    of that step have second moments dt_k times the correlation matrix, if chol chol^T is the correlation matrix. *)
Theorem C65_correlation : forall b dt (M : nat) (w : nat -> R) (draw : nat -> nat -> vec) (C : mat) (bs : nat -> brownian) (incs : nat -> list vec) dts k q (cols : nat -> vec),
  forward dt -> datetime_ok (bm_start b) -> datetime_ok (bm_end b) -> dt_abs (bm_start b) <= dt_abs (bm_end b) ->
  (forall i j, (i < bm_dim b)%nat -> (j < bm_dim b)%nat -> sumn (bm_dim b) (fun l => bm_chol b i l * bm_chol b j l)%R = C i j) ->
  (forall m, (m < M)%nat -> generate_increments b dt (draw m) = (bs m, Ok (incs m, dts)) /\ nth_error (incs m) k = Some (cols m)) -> nth_error dts k = Some q -> (0 <= Q2R q)%R ->
  (forall i j, (i < bm_dim b)%nat -> (j < bm_dim b)%nat -> sumn M (fun m => w m * draw m k i * draw m k j)%R = delta i j) ->
  forall i j, (i < bm_dim b)%nat -> (j < bm_dim b)%nat -> sumn M (fun m => w m * cols m i * cols m j)%R = (Q2R q * C i j)%R.
Proof.
  intros b dt M w draw C bs incs dts k q cols F Os Oe L Ch Gen Q Pq Mom i j I J. set (n := bm_dim b) in *. set (Lm := bm_chol b) in *.
  assert (Col : forall m i, (m < M)%nat -> cols m i = (sqrt (Q2R q) * sumn n (fun l => Lm i l * draw m k l))%R).
  { intros m i0 Hm. destruct (Gen m Hm) as [G N]. destruct (C48_grid _ _ _ _ _ _ F Os Oe L G) as (g & _ & _ & _ & _ & _ & _ & _ & H). exact (H k q (cols m) i0 Q N). }
  rewrite (sumn_ext M _ (fun m => Q2R q * sumn n (fun l => sumn n (fun l' => Lm i l * Lm j l' * (w m * draw m k l * draw m k l'))))%R).
  2:{ intros m Hm. rewrite !Col by auto. transitivity (w m * (sqrt (Q2R q) * sqrt (Q2R q)) * (sumn n (fun l => Lm i l * draw m k l) * sumn n (fun l => Lm j l * draw m k l)))%R; [ring|].
      rewrite sqrt_sqrt by exact Pq. rewrite <- sumn_scal_r. replace (w m * Q2R q)%R with (Q2R q * w m)%R by ring. rewrite Rmult_assoc. f_equal. rewrite <- sumn_scal. apply sumn_ext. intros l _.
      rewrite <- sumn_scal, <- sumn_scal. apply sumn_ext. intros l' _. ring. }
  rewrite sumn_scal. f_equal. rewrite sumn_swap. rewrite <- Ch by auto. apply sumn_ext. intros l Hl. rewrite sumn_swap.
  rewrite (sumn_ext n _ (fun l' => delta l l' * (Lm i l * Lm j l'))%R).
  2:{ intros l' Hl'. rewrite sumn_scal, Mom by auto. ring. }
  apply sumn_delta. exact Hl.
Qed.
Print Assumptions C65_correlation.

(** ---- C50 ---- *)
(** time elapsed before step k, in years *)
Definition years_before (dts : list Q) (k : nat) : R := fold_right Rplus 0%R (List.map Q2R (firstn k dts)).

Lemma euler_spec n coll steps : forall h cur time h' sol, euler n coll h cur time steps = (h', sol) ->
  (forall a, a <> cur -> arr h' a = arr h a) /\ List.length sol = S (List.length steps) /\ nth_error sol 0 = Some (arr h cur) /\
  forall k s q v w i, nth_error steps k = Some (s, q) -> nth_error sol k = Some v -> nth_error sol (S k) = Some w ->
    w i = (v i + next_step n coll (time + years_before (List.map snd steps) k) v s q i)%R.
Proof.
  induction steps as [|[s0 q0] steps IH]; intros h cur time h' sol; cbn [euler].
  - intros [= <- <-]. split; [reflexivity|]. split; [reflexivity|]. split; [reflexivity|]. intros [|k] s q v w i; discriminate.
  - set (h1 := store _ _ _). destruct (euler n coll h1 cur (time + Q2R q0)%R steps) as [h2 sol2] eqn:E. intros [= <- <-].
    destruct (IH _ _ _ _ _ E) as (Fr & Ln & H0 & H). split; [|split; [cbn [List.length]; rewrite Ln; reflexivity|split; [reflexivity|]]].
    + intros a Na. rewrite (Fr a Na). unfold h1, store. cbn [arr]. destruct (Nat.eqb_spec a cur); [contradiction|reflexivity].
    + intros [|k] s q v w i; cbn [nth_error].
      * intros [= <- <-] [= <-] W. cbn [nth_error] in H0. rewrite H0 in W. injection W as <-. unfold h1, store. cbn [arr]. rewrite Nat.eqb_refl.
        unfold years_before. cbn [firstn List.map fold_right]. rewrite Rplus_0_r. reflexivity.
      * intros S0 V W. rewrite (H k s q v w i S0 V W). unfold years_before. cbn [List.map firstn fold_right]. rewrite Rplus_assoc. reflexivity.
Qed.

Lemma combine_nth' {A B} (l : list A) (m : list B) k a b : nth_error l k = Some a -> nth_error m k = Some b -> nth_error (combine l m) k = Some (a, b).
Proof. revert m k. induction l as [|x l IH]; intros [|y m] [|k]; cbn; try discriminate; [intros [= ->] [= ->]; reflexivity|apply IH]. Qed.
Lemma map_snd_combine {A B} (l : list A) (m : list B) : List.length l = List.length m -> List.map snd (combine l m) = m.
Proof. revert m. induction l as [|x l IH]; intros [|y m]; cbn; try discriminate; auto. intros [= E]. rewrite IH; auto. Qed.

(** The Euler scheme.  [start] is the caller's array. *)
Theorem C50_euler : forall p h start set draw p' h' sol, forward (pr_dt p) -> datetime_ok (bm_start (pr_bm p)) -> datetime_ok (bm_end (pr_bm p)) ->
  dt_abs (bm_start (pr_bm p)) <= dt_abs (bm_end (pr_bm p)) -> (start < fresh h)%nat -> pr_generate_path p h start set draw = (p', h', Ok sol) ->
  exists g dts incs b', generate_increments (pr_bm p) (pr_dt p) draw = (b', Ok (incs, dts)) /\ bm_times (pr_bm p') = Some g /\
    time_grid (bm_start (pr_bm p)) (bm_end (pr_bm p)) (pr_dt p) g /\ List.length sol = List.length g /\ List.length g = S (List.length dts) /\
    nth_error sol 0 = Some (arr h start) /\
    (forall k q s v w i f, nth_error dts k = Some q -> nth_error incs k = Some s -> nth_error sol k = Some v -> nth_error sol (S k) = Some w -> nth_error (pr_coll p) i = Some f ->
       w i = (v i + dd_drift f (years_before dts k) v * Q2R q + sumn (bm_dim (pr_bm p)) (fun j => dd_diffusion f (years_before dts k) v j * s j))%R) /\
    (forall a, (a < fresh h)%nat -> arr h' a = arr h a) /\
    pr_path p' = (if set then Some sol else pr_path p) /\ pr_dt p' = pr_dt p /\ pr_coll p' = pr_coll p.
Proof.
  intros p h start set draw p' h' sol F Os Oe L St E. unfold pr_generate_path in E.
  destruct (generate_increments (pr_bm p) (pr_dt p) draw) as [b [[incs dts]|]] eqn:G; [|discriminate].
  destruct (C48_grid _ _ _ _ _ _ F Os Oe L G) as (g & T1 & T2 & T3 & TG & Lg & Li & Ac & Cl).
  assert (Db : bm_dim b = bm_dim (pr_bm p)) by (destruct (generate_inv _ _ _ _ _ _ F Os Oe L G) as (g' & -> & _); reflexivity).
  destruct (alloc h (arr h start)) as [cur h1] eqn:Al. unfold alloc in Al. injection Al as <- <-.
  destruct (euler _ _ _ _ _ _) as [h2 s2] eqn:Eu. injection E as <- <- <-. destruct (euler_spec _ _ _ _ _ _ _ _ Eu) as (Fr & Ln & H0 & H).
  cbn [arr] in H0. rewrite Nat.eqb_refl in H0. rewrite combine_length in Ln.
  exists g, dts, incs, b. split; [reflexivity|]. split; [exact T1|]. split; [exact TG|]. split; [lia|]. split; [exact Lg|]. split; [exact H0|].
  split; [|split; [|auto]].
  - intros k q s v w i f Q Sh V W Fi. rewrite (H k s q v w i (combine_nth' _ _ _ _ _ Sh Q) V W). unfold next_step. rewrite Fi, map_snd_combine, Rplus_0_l, Db by auto. unfold dot. ring.
  - intros a Ha. rewrite Fr by lia. cbn [arr]. destruct (Nat.eqb_spec a (fresh h)); [lia|reflexivity].
Qed.
Print Assumptions C50_euler.

(** Evaluation of a stored path; and changing dt discards it. *)
Theorem C50_evaluation : forall p h start draw p' h' sol, forward (pr_dt p) -> datetime_ok (bm_start (pr_bm p)) -> datetime_ok (bm_end (pr_bm p)) ->
  dt_abs (bm_start (pr_bm p)) <= dt_abs (bm_end (pr_bm p)) -> (start < fresh h)%nat -> pr_generate_path p h start true draw = (p', h', Ok sol) ->
  exists g, bm_times (pr_bm p') = Some g /\ nth_error g 0 = Some (bm_start (pr_bm p)) /\ nth_error g (List.length g - 1) = Some (bm_end (pr_bm p)) /\
    (forall k x v, nth_error g k = Some x -> nth_error sol k = Some v -> pr_call p' x = Ok v) /\
    (forall x, dt_abs x < dt_abs (bm_start (pr_bm p)) \/ dt_abs (bm_end (pr_bm p)) < dt_abs x -> pr_call p' x = Err ValueError) /\
    (forall dt x, pr_call (pr_set_dt p' dt) x = Err ValueError /\ pr_dt (pr_set_dt p' dt) = dt).
Proof.
  intros p h start draw p' h' sol F Os Oe L St E. destruct (C50_euler _ _ _ _ _ _ _ _ F Os Oe L St E) as (g & dts & incs & b' & G & T1 & TG & Ls & Lg & _ & _ & _ & Pp & _).
  assert (Sb : bm_start (pr_bm p') = bm_start (pr_bm p) /\ bm_end (pr_bm p') = bm_end (pr_bm p)).
  { unfold pr_generate_path in E. rewrite G in E. destruct (alloc _ _). destruct (euler _ _ _ _ _ _). injection E as <- <- <-. cbn [pr_bm].
    destruct (generate_inv _ _ _ _ _ _ F Os Oe L G) as (g' & -> & _). auto. }
  destruct Sb as (S1 & S2). destruct TG as [G1 G2 G3 G4 G5]. exists g. split; [exact T1|]. split; [exact G1|]. split; [exact G2|]. split; [|split].
  - intros k x v X V. unfold pr_call. rewrite T1, Pp. eapply call_on_grid; eauto. rewrite S1, S2. apply G4. eapply nth_error_In; eauto.
  - intros x B. unfold pr_call. rewrite Pp. apply call_outside. rewrite S1, S2. exact B.
  - intros dt x. split; reflexivity.
Qed.
Print Assumptions C50_evaluation.

(** ---- C51 ---- *)
Fixpoint growth_factor (mu sigma : R) (steps : list (vec * Q)) (i k : nat) : R :=
  match k, steps with
  | S k, (s, q) :: steps => ((1 + mu * Q2R q + sigma * s i) * growth_factor mu sigma steps i k)%R
  | _, _ => 1%R
  end.
Lemma gbm_loop_spec mu sigma steps : forall v, List.length (gbm_loop mu sigma v steps) = S (List.length steps) /\
  forall k w i, nth_error (gbm_loop mu sigma v steps) k = Some w -> w i = (v i * growth_factor mu sigma steps i k)%R.
Proof.
  induction steps as [|[s q] steps IH]; intros v; cbn [gbm_loop].
  - split; [reflexivity|]. intros [|k] w i; cbn [nth_error]; [intros [= <-]; cbn; ring|destruct k; discriminate].
  - destruct (IH (fun i => v i + mu * v i * Q2R q + sigma * v i * s i)%R) as [Ln H]. split; [cbn [List.length]; rewrite Ln; reflexivity|].
    intros [|k] w i; cbn [nth_error]; [intros [= <-]; cbn; ring|]. intros W. rewrite (H k w i W). cbn [growth_factor]. ring.
Qed.
Lemma growth_positive mu sigma steps i : (forall s q, In (s, q) steps -> (0 < 1 + mu * Q2R q + sigma * s i)%R) -> forall k, (0 < growth_factor mu sigma steps i k)%R.
Proof.
  induction steps as [|[s q] steps IH]; intros H [|k]; cbn [growth_factor]; try lra. apply Rmult_lt_0_compat; [apply H; left; reflexivity|apply IH; intros; apply H; right; auto].
Qed.

(** Each coordinate is its starting value times the product of (1 + mu dt + sigma shock). *)
Theorem C51_product : forall g v set draw g' sol, forward (g_dt g) -> datetime_ok (bm_start (g_bm g)) -> datetime_ok (bm_end (g_bm g)) -> dt_abs (bm_start (g_bm g)) <= dt_abs (bm_end (g_bm g)) ->
  gbm_generate_path g (StartArray v) set draw = (g', Ok sol) ->
  exists times dts incs b', generate_increments (g_bm g) (g_dt g) draw = (b', Ok (incs, dts)) /\ bm_times (g_bm g') = Some times /\ time_grid (bm_start (g_bm g)) (bm_end (g_bm g)) (g_dt g) times /\
    List.length sol = List.length times /\ g_path g' = (if set then Some sol else g_path g) /\
    forall k w i, nth_error sol k = Some w -> w i = (v i * growth_factor (g_drift g) (g_vol g) (combine incs dts) i k)%R /\
      (v i = 0%R -> w i = 0%R) /\
      ((forall s q, In (s, q) (combine incs dts) -> (0 < 1 + g_drift g * Q2R q + g_vol g * s i)%R) -> (0 < v i)%R -> (0 < w i)%R).
Proof.
  intros g v set draw g' sol F Os Oe L E. unfold gbm_generate_path in E. destruct (generate_increments (g_bm g) (g_dt g) draw) as [b [[incs dts]|]] eqn:G; [|discriminate].
  destruct (C48_grid _ _ _ _ _ _ F Os Oe L G) as (tms & T1 & T2 & T3 & TG & Lg & Li & _). injection E as <- <-.
  destruct (gbm_loop_spec (g_drift g) (g_vol g) (combine incs dts) v) as [Ln H]. rewrite combine_length in Ln.
  exists tms, dts, incs, b. split; [reflexivity|]. split; [exact T1|]. split; [exact TG|]. split; [lia|]. split; [reflexivity|].
  intros k w i W. rewrite (H k w i W). split; [reflexivity|]. split; [intros ->; ring|]. intros P V. apply Rmult_lt_0_compat; [exact V|]. apply growth_positive. exact P.
Qed.
Print Assumptions C51_product.

(** Scaling the starting value scales the path; a float starting value is rejected. *)
Theorem C51_linear : forall g c v draw g1 s1 g2 s2 k w1 w2 i, gbm_generate_path g (StartArray v) true draw = (g1, Ok s1) ->
  gbm_generate_path g (StartArray (fun i => c * v i)%R) true draw = (g2, Ok s2) -> nth_error s1 k = Some w1 -> nth_error s2 k = Some w2 -> w2 i = (c * w1 i)%R.
Proof.
  intros g c v draw g1 s1 g2 s2 k w1 w2 i E1 E2 W1 W2. unfold gbm_generate_path in *. destruct (generate_increments (g_bm g) (g_dt g) draw) as [b [[incs dts]|]]; [|discriminate].
  injection E1 as <- <-. injection E2 as <- <-. rewrite (proj2 (gbm_loop_spec _ _ _ v) k w1 i W1), (proj2 (gbm_loop_spec _ _ _ _) k w2 i W2). ring.
Qed.
Print Assumptions C51_linear.
Theorem C51_float_start : forall g r set draw, exists g' e, gbm_generate_path g (StartFloat r) set draw = (g', Err e) /\ g_path g' = g_path g /\
  (forall v g'' sol, gbm_generate_path g (StartArray v) set draw = (g'', Ok sol) -> e = AttributeError).
Proof.
  intros g r set draw. unfold gbm_generate_path. destruct (generate_increments _ _ _) as [b [[incs dts]|]]; do 2 eexists; (split; [reflexivity|]; split; [reflexivity|]); intros v g'' sol E; [reflexivity|discriminate].
Qed.
Print Assumptions C51_float_start.

(** A process as the constructor makes it: no path and no grid yet, and after a run the path the product formula gives, on the grid from start to end. *)
Theorem C51_constructed : forall mu sigma s e n L dt v set draw g' sol, forward dt -> datetime_ok s -> datetime_ok e -> dt_abs s <= dt_abs e ->
  let g := new_gbm mu sigma s e n L dt in g_path g = None /\ bm_times (g_bm g) = None /\ bm_dcc (g_bm g) = ACTACT /\
  (gbm_generate_path g (StartArray v) set draw = (g', Ok sol) -> exists times dts incs b', generate_increments (g_bm g) dt draw = (b', Ok (incs, dts)) /\ time_grid s e dt times /\ bm_times (g_bm g') = Some times /\
    List.length sol = List.length times /\ g_path g' = (if set then Some sol else None) /\
    forall k w i, nth_error sol k = Some w -> w i = (v i * growth_factor mu sigma (combine incs dts) i k)%R).
Proof.
  intros mu sigma s e n L dt v set draw g' sol F Os Oe Le g. split; [reflexivity|]. split; [reflexivity|]. split; [reflexivity|]. intros E.
  destruct (C51_product g v set draw g' sol F Os Oe Le E) as (times & dts & incs & b' & G & T & TG & Ln & Gp & H). exists times, dts, incs, b'.
  split; [exact G|]. split; [exact TG|]. split; [exact T|]. split; [exact Ln|]. split; [exact Gp|]. intros k w i W. apply (H k w i W).
Qed.
Print Assumptions C51_constructed.

(** ---- concrete cases ---- *)
(** four days from 2024-01-01, Act/360, one dimension, every draw 1 *)
Definition t_day (k : Z) : datetime := DT (738886 + k) 0.
Definition one_day : dt_step := StepTimedelta 86400000000.
Definition two_days : dt_step := StepTimedelta 172800000000.
Definition ones : nat -> vec := fun _ _ => 1%R.
Definition bm_2024 : brownian := new_brownian (t_day 0) (t_day 4) 1 delta ACT360.
Definition days_2024 := [t_day 0; t_day 1; t_day 2; t_day 3; t_day 4].
Lemma days_2024_ok : generate_datetimes (t_day 0) (t_day 4) one_day 1000000 = Ok days_2024.
Proof. vm_compute. reflexivity. Qed.
Lemma two_days_2024_ok : generate_datetimes (t_day 0) (t_day 4) two_days 1000000 = Ok [t_day 0; t_day 2; t_day 4].
Proof. vm_compute. reflexivity. Qed.
(** one day of Act/360 and two days, as the day-count code leaves them (unreduced) *)
Definition q1 : Q := 22394880000000000000000000000000000 # 8062156800000000000000000000000000000.
Definition p_2024 : list vec := cumsum (fun _ => 0%R) (columns_from bm_2024 ones 0 [q1; q1; q1; q1]).
Definition bm_2024_run : brownian := set_bm_path (set_dts (set_times bm_2024 days_2024) [q1; q1; q1; q1]) p_2024.
Lemma run_2024 : bm_generate_path bm_2024 one_day true ones = (bm_2024_run, Ok p_2024).
Proof.
  assert (G : generate_increments bm_2024 one_day ones = (set_dts (set_times bm_2024 days_2024) [q1; q1; q1; q1], Ok (columns_from bm_2024 ones 0 [q1; q1; q1; q1], [q1; q1; q1; q1]))).
  { unfold generate_increments. change (bm_start bm_2024) with (t_day 0). change (bm_end bm_2024) with (t_day 4). rewrite days_2024_ok.
    change (nth_error days_2024 (List.length days_2024 - 1)) with (Some (t_day 4)). change (dt_ltb (t_day 4) (t_day 4)) with false. cbv iota.
    replace (mapM _ (pairwise days_2024)) with (@Ok (list Q) [q1; q1; q1; q1]) by (vm_compute; reflexivity). reflexivity. }
  unfold bm_generate_path. rewrite G. reflexivity.
Qed.
Lemma q1_value : Q2R q1 = (1 / 360)%R.
Proof. rewrite (Qeq_eqR q1 (1 # 360)) by (vm_compute; reflexivity). unfold Q2R. cbn. lra. Qed.
Lemma day_ok k : 0 <= k <= 4 -> stamp_ok ACT360 (t_day k).
Proof. intros K. unfold stamp_ok, datetime_ok, date_ok, t_day, min_date, max_date, us_per_day. cbn [dt_date dt_us]. repeat split; try lia. discriminate. Qed.
Lemma col_2024 k : increment_column bm_2024 ones k q1 0%nat = sqrt (1 / 360).
Proof.
  unfold increment_column, mvec, dot. change (bm_dim bm_2024) with 1%nat. change (bm_chol bm_2024) with delta. cbn [sumn]. unfold delta, ones. cbn [Nat.eqb]. rewrite q1_value. lra.
Qed.
Lemma p_2024_value k v : nth_error p_2024 k = Some v -> v 0%nat = (INR k * sqrt (1 / 360))%R.
Proof.
  unfold p_2024. cbn [columns_from cumsum]. destruct k as [|[|[|[|[|k]]]]]; cbn [nth_error]; [..|destruct k; discriminate]; intros [= <-]; rewrite ?col_2024; cbn [INR]; lra.
Qed.

Example C48_case : forward one_day /\ datetime_ok (bm_start bm_2024) /\ datetime_ok (bm_end bm_2024) /\ dt_abs (bm_start bm_2024) <= dt_abs (bm_end bm_2024) /\
  bm_generate_path bm_2024 one_day true ones = (bm_2024_run, Ok p_2024) /\ stamp_ok ACT360 (bm_start bm_2024) /\ (exists t, add_us (bm_end bm_2024) 86400000000 = Ok t).
Proof.
  split; [reflexivity|]. split; [apply (day_ok 0); lia|]. split; [apply (day_ok 4); lia|]. split; [apply Z.leb_le; vm_compute; reflexivity|]. split; [exact run_2024|].
  split; [apply (day_ok 0); lia|]. eexists. vm_compute. reflexivity.
Qed.

(** Generating without storing (set_path=False) still replaces the time grid: the stored path is then read at the wrong
    times.  Here the value at day 2 changes from 2 sqrt(1/360) to sqrt(1/360). *)
Theorem C48_stale_grid_refuted : exists b b1 b2 p p2 x v v2, bm_generate_path b one_day true ones = (b1, Ok p) /\ bm_call b1 x = Ok v /\
  bm_generate_path b1 two_days false ones = (b2, Ok p2) /\ bm_path b2 = bm_path b1 /\ bm_call b2 x = Ok v2 /\ v2 0%nat <> v 0%nat.
Proof.
  destruct (nth_error p_2024 2) as [v|] eqn:V; [|discriminate]. destruct (nth_error p_2024 1) as [v2|] eqn:V2; [|discriminate].
  set (q2 := (44789760000000000000000000000000000 # 8062156800000000000000000000000000000)%Q).
  set (b2 := set_dts (set_times bm_2024_run [t_day 0; t_day 2; t_day 4]) [q2; q2]).
  exists bm_2024, bm_2024_run, b2, p_2024, (cumsum (fun _ => 0%R) (columns_from bm_2024_run ones 0 [q2; q2])), (t_day 2), v, v2.
  split; [exact run_2024|]. split.
  { destruct C48_case as (F & Os & Oe & L & R & _). destruct (C48_evaluation _ _ _ _ _ F Os Oe L R) as (g & T & _ & _ & _ & H & _). apply (H 2%nat); [|exact V].
    change (bm_times bm_2024_run) with (Some days_2024) in T. injection T as <-. reflexivity. }
  assert (G : generate_increments bm_2024_run two_days ones = (b2, Ok (columns_from bm_2024_run ones 0 [q2; q2], [q2; q2]))).
  { unfold generate_increments. change (bm_start bm_2024_run) with (t_day 0). change (bm_end bm_2024_run) with (t_day 4). rewrite two_days_2024_ok.
    change (nth_error [t_day 0; t_day 2; t_day 4] (List.length [t_day 0; t_day 2; t_day 4] - 1)) with (Some (t_day 4)). change (dt_ltb (t_day 4) (t_day 4)) with false. cbv iota.
    replace (mapM _ (pairwise [t_day 0; t_day 2; t_day 4])) with (@Ok (list Q) [q2; q2]) by (vm_compute; reflexivity). reflexivity. }
  split; [unfold bm_generate_path; rewrite G; reflexivity|]. split; [reflexivity|]. split.
  - apply (call_on_grid (t_day 2) (t_day 0) (t_day 4) ACT360 [t_day 0; t_day 2; t_day 4] p_2024 1%nat v2); [|reflexivity|exact V2|split; apply Z.leb_le; vm_compute; reflexivity].
    apply steps_increasing. assert (D : forall k j, k < j -> dt_abs (t_day k) < dt_abs (t_day j)) by (intros k j K; unfold dt_abs, t_day, us_per_day; cbn [dt_date dt_us]; lia).
    intros i s t Hs Ht. destruct i as [|[|i]].
    + cbn in Hs, Ht. assert (s = t_day 0) by congruence. assert (t = t_day 2) by congruence. subst. apply D. lia.
    + cbn in Hs, Ht. assert (s = t_day 2) by congruence. assert (t = t_day 4) by congruence. subst. apply D. lia.
    + exfalso. assert (nth_error [t_day 0; t_day 2; t_day 4] (S (S (S i))) <> None) by (rewrite Ht; discriminate). apply nth_error_Some in H. cbn in H. lia.
  - rewrite (p_2024_value _ _ V), (p_2024_value _ _ V2). cbn [INR]. pose proof (sqrt_lt_R0 (1 / 360) ltac:(lra)). lra.
Qed.
Print Assumptions C48_stale_grid_refuted.

(** Six hours into the first day the value is three quarters, not one quarter, of the way to the next value. *)
Theorem C49_linear_refuted : exists b b1 p x v prev nxt, bm_generate_path b one_day true ones = (b1, Ok p) /\ bm_start b = t_day 0 /\ dt_abs x = dt_abs (t_day 0) + 6 * 3600 * 1000000 /\
  nth_error p 0 = Some prev /\ nth_error p 1 = Some nxt /\ bm_call b1 x = Ok v /\ (0 < nxt 0%nat)%R /\ prev 0%nat = 0%R /\ v 0%nat = (3 / 4 * nxt 0%nat)%R.
Proof.
  destruct (nth_error p_2024 0) as [v0|] eqn:V0; [|discriminate]. destruct (nth_error p_2024 1) as [v1|] eqn:V1; [|discriminate].
  destruct C48_case as (F & Os & Oe & L & R & _). set (x := DT 738886 21600000000).
  destruct (C49_between bm_2024 one_day ones bm_2024_run p_2024 days_2024 0%nat (t_day 0) (t_day 1) x v0 v1 F ltac:(discriminate) (day_ok 0 ltac:(lia)) (day_ok 4 ltac:(lia)) R L eq_refl eq_refl eq_refl V0 V1) as (a & c & v & A & C & Pa & Pc & Cv & H).
  - unfold datetime_ok, date_ok, x, min_date, max_date, us_per_day. cbn [dt_date dt_us]. lia.
  - split; apply Z.ltb_lt; vm_compute; reflexivity.
  - exists bm_2024, bm_2024_run, p_2024, x, v, v0, v1. split; [exact R|]. split; [reflexivity|]. split; [vm_compute; reflexivity|]. split; [exact V0|]. split; [exact V1|]. split; [exact Cv|].
    pose proof (p_2024_value _ _ V0) as E0. pose proof (p_2024_value _ _ V1) as E1. cbn [INR] in E0, E1. pose proof (sqrt_lt_R0 (1 / 360) ltac:(lra)). split; [lra|]. split; [lra|].
    destruct (H 0%nat) as [Hv _]. rewrite Hv.
    assert (Va : Q2R a = (1 / 1440)%R). { assert (Qa : (a == 1 # 1440)%Q) by (assert (M : match compute_accrual_length (Stamp (t_day 0)) (Stamp x) ACT360 with Ok z => Qeq_bool z (1 # 1440) | Err _ => false end = true) by (vm_compute; reflexivity); change (bm_dcc bm_2024) with ACT360 in A; rewrite A in M; apply Qeq_bool_iff; exact M).
      rewrite (Qeq_eqR _ _ Qa). unfold Q2R. cbn. lra. }
    assert (Vc : Q2R c = (3 / 1440)%R). { assert (Qa : (c == 3 # 1440)%Q) by (assert (M : match compute_accrual_length (Stamp x) (Stamp (t_day 1)) ACT360 with Ok z => Qeq_bool z (3 # 1440) | Err _ => false end = true) by (vm_compute; reflexivity); change (bm_dcc bm_2024) with ACT360 in C; rewrite C in M; apply Qeq_bool_iff; exact M).
      rewrite (Qeq_eqR _ _ Qa). unfold Q2R. cbn. lra. }
    rewrite Va, Vc, E0. field.
Qed.
Print Assumptions C49_linear_refuted.

(** a mean-reverting process on the same grid, from a caller's array at address 0 *)
Definition pr_2024 : process := new_process [DriftDiffusion (fun _ v => 1 - v 0%nat)%R (fun _ _ _ => 2%R)] bm_2024 one_day.
Definition start_heap : arrays := Arrays (fun _ _ => 3%R) 1.
Example C50_case : exists p' h' sol, pr_generate_path pr_2024 start_heap 0 true ones = (p', h', Ok sol) /\ (0 < fresh start_heap)%nat /\ List.length sol = 5%nat /\
  (forall w, nth_error sol 1 = Some w -> w 0%nat = (3 + (1 - 3) * (1 / 360) + 2 * sqrt (1 / 360))%R) /\ arr h' 0%nat = arr start_heap 0%nat.
Proof.
  destruct C48_case as (F & Os & Oe & L & R & _). pose proof run_2024 as R'. unfold bm_generate_path in R'. destruct (generate_increments bm_2024 one_day ones) as [b1 [[incs dts]|]] eqn:G; [|discriminate].
  destruct (pr_generate_path pr_2024 start_heap 0 true ones) as [[p' h'] r] eqn:E. assert (Er : exists sol, r = Ok sol).
  { unfold pr_generate_path in E. change (pr_bm pr_2024) with bm_2024 in E. change (pr_dt pr_2024) with one_day in E. rewrite G in E. destruct (alloc _ _). destruct (euler _ _ _ _ _ _). injection E as _ _ <-. eauto. }
  destruct Er as [sol ->]. destruct (C50_euler pr_2024 start_heap 0 true ones p' h' sol F Os Oe L ltac:(cbn; lia) E) as (g & dts' & incs' & b' & G' & T & TG & Ls & Lg & S0 & Sk & Fr & _).
  change (pr_bm pr_2024) with bm_2024 in *. change (pr_dt pr_2024) with one_day in *. rewrite G in G'. injection G' as <- <- <-.
  destruct (C48_grid _ _ _ _ _ _ F Os Oe L G) as (g' & T1 & _ & _ & TG' & Lg' & Li & Ac & Cl).
  assert (Eg : g = days_2024 /\ dts = [q1; q1; q1; q1]).
  { assert (Gx : generate_increments bm_2024 one_day ones = (set_dts (set_times bm_2024 days_2024) [q1; q1; q1; q1], Ok (columns_from bm_2024 ones 0 [q1; q1; q1; q1], [q1; q1; q1; q1]))).
    { unfold generate_increments. change (bm_start bm_2024) with (t_day 0). change (bm_end bm_2024) with (t_day 4). rewrite days_2024_ok.
      change (nth_error days_2024 (List.length days_2024 - 1)) with (Some (t_day 4)). change (dt_ltb (t_day 4) (t_day 4)) with false. cbv iota.
      replace (mapM _ (pairwise days_2024)) with (@Ok (list Q) [q1; q1; q1; q1]) by (vm_compute; reflexivity). reflexivity. }
    rewrite G in Gx. injection Gx as -> -> ->. split; [|reflexivity].
    unfold pr_generate_path in E. change (pr_bm pr_2024) with bm_2024 in E. change (pr_dt pr_2024) with one_day in E. rewrite G in E. destruct (alloc _ _). destruct (euler _ _ _ _ _ _). injection E as <- _ _. cbn in T. congruence. }
  destruct Eg as [-> ->]. exists p', h', sol. split; [reflexivity|]. split; [cbn; lia|]. split; [exact Ls|]. split.
  - intros w W. destruct (nth_error incs 0) as [s|] eqn:Es; [|apply nth_error_None in Es; cbn in Li; lia].
    rewrite (Sk 0%nat q1 s _ w 0%nat _ eq_refl Es S0 W eq_refl). cbn [dd_drift dd_diffusion]. change (arr start_heap 0%nat 0%nat) with 3%R. rewrite q1_value.
    change (bm_dim bm_2024) with 1%nat. cbn [sumn]. rewrite (Cl 0%nat q1 s 0%nat eq_refl Es), q1_value. change (bm_dim bm_2024) with 1%nat. change (bm_chol bm_2024) with delta. cbn [sumn]. unfold delta, ones. cbn [Nat.eqb]. lra.
  - apply Fr. cbn. lia.
Qed.

Definition gbm_2024 : gbm := Gbm (1 / 20) (1 / 5) 1 one_day bm_2024 None.
Example C51_case : exists g' sol, gbm_generate_path gbm_2024 (StartArray (fun _ => 100%R)) true ones = (g', Ok sol) /\ List.length sol = 5%nat.
Proof.
  pose proof run_2024 as R'. unfold bm_generate_path in R'. unfold gbm_generate_path. change (g_bm gbm_2024) with bm_2024. change (g_dt gbm_2024) with one_day.
  destruct (generate_increments bm_2024 one_day ones) as [b1 [[incs dts]|]] eqn:G; [|discriminate].
  destruct C48_case as (F & Os & Oe & L & R & _). destruct (C48_grid _ _ _ _ _ _ F Os Oe L G) as (g' & _ & _ & _ & _ & Lg & Li & _).
  do 2 eexists. split; [reflexivity|]. rewrite (proj1 (gbm_loop_spec _ _ _ _)), combine_length. assert (H : cumsum (fun _ => 0%R) incs = p_2024) by congruence.
  apply (f_equal (@List.length vec)) in H. rewrite (proj1 (cumsum_spec incs _)) in H. change (List.length p_2024) with 5%nat in H. lia.
Qed.

(** two opposite draws with weights 1/2: unit second moment *)
Example C65_case : (forall i j, (i < 1)%nat -> (j < 1)%nat -> sumn 1 (fun l => delta i l * delta j l)%R = delta i j) /\
  sumn 2 (fun m => (1 / 2) * (if Nat.eqb m 0 then 1 else -1) * (if Nat.eqb m 0 then 1 else -1))%R = 1%R.
Proof.
  split; [|cbn; lra]. intros [|i] [|j] I J; try lia. cbn. unfold delta. cbn. lra.
Qed.
