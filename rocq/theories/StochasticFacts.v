(** Facts on datetime grids, timestamps' accruals, bisection and paths. *)
From Verif Require Import Base PyDate PyDateFacts DayCount DayCountFacts PyList KeyRate Curve Loan LoanFacts BondFacts ModFollFacts CurveFacts P_DayCount RVec Stochastic.
From Coq Require Import Reals Lra Lqa Sorted.
Open Scope Z_scope.
Ltac lra := first [Lqa.lra | Lra.lra].

Lemma dt_abs_inj s t : 0 <= dt_us s < us_per_day -> 0 <= dt_us t < us_per_day -> dt_abs s = dt_abs t -> s = t.
Proof.
  destruct s as [d u], t as [d' u']. unfold dt_abs, us_per_day. cbn. intros A B E.
  assert (d = d') by lia. subst. f_equal. lia.
Qed.
Lemma dt_abs_date s t : datetime_ok s -> datetime_ok t -> dt_abs s <= dt_abs t -> dt_date s <= dt_date t.
Proof. unfold datetime_ok, dt_abs, us_per_day. destruct s, t; cbn. lia. Qed.

Lemma add_us_spec t n t' : 0 <= dt_us t < us_per_day -> add_us t n = Ok t' -> datetime_ok t' /\ dt_abs t' = dt_abs t + n.
Proof.
  unfold add_us. intros U. destruct (_ && _) eqn:C; [|discriminate]. intros [= <-]. unfold datetime_ok, date_ok. cbn [dt_date dt_us].
  assert (P : 0 < us_per_day) by reflexivity.
  pose proof (Z.mod_pos_bound (dt_abs t + n) us_per_day P) as M. pose proof (Z.div_mod (dt_abs t + n) us_per_day ltac:(lia)) as D. split; [split; [lia|exact M]|]. unfold dt_abs at 1. cbn [dt_date dt_us]. lia.
Qed.

(** the steps that move forward *)
Definition forward (i : dt_step) : Prop :=
  match i with StepTimedelta u => 0 < u | StepRelative m u => 0 <= m /\ 0 <= u /\ 0 < m + u end.

Lemma add_step_forward i t t' : forward i -> datetime_ok t -> add_step t i = Ok t' -> datetime_ok t' /\ dt_abs t < dt_abs t'.
Proof.
  intros F [O U]. destruct i as [u|m u]; cbn [add_step forward] in *.
  - intros E. destruct (add_us_spec _ _ _ U E) as [Ok' A]. split; [exact Ok'|lia].
  - destruct F as (M & P & Q). destruct (add_months (dt_date t) m) as [d|] eqn:A; cbn [bind]; [|discriminate]. intros E.
    destruct (add_us_spec (DT d (dt_us t)) u t' U E) as [Ok' Ab]. split; [exact Ok'|].
    assert (D : dt_date t <= d /\ (0 < m -> dt_date t < d)).
    { destruct (Z.eq_dec m 0) as [->|N]; [rewrite add_months_0 in A by exact O; injection A as <-; lia|].
      destruct (add_months_after _ _ _ A ltac:(lia)) as [H _]. lia. }
    rewrite Ab. unfold dt_abs, us_per_day. cbn [dt_date dt_us]. destruct D as [D1 D2]. destruct (Z.eq_dec m 0); [nia|specialize (D2 ltac:(lia)); nia].
Qed.

Lemma step_positive_forward i t b : forward i -> datetime_ok t -> step_positive t i = Ok b -> b = true.
Proof.
  intros F O. destruct i as [u|m u]; cbn [step_positive].
  - cbn in F. intros [= <-]. lia.
  - destruct (add_step t (StepRelative m u)) as [t'|] eqn:E; cbn [bind]; [|discriminate]. intros [= <-]. destruct (add_step_forward _ _ _ F O E). unfold dt_leb. lia.
Qed.

(** ---- accruals between timestamps ---- *)
Definition stamp_ok (c : dcc) (t : datetime) : Prop := datetime_ok t /\ dt_date t < max_date /\ (c = ACTACT -> 2 <= year (dt_date t)).

Lemma accrual_total c s e : stamp_ok c s -> stamp_ok c e -> dt_abs s <= dt_abs e -> exists q, compute_accrual_length (Stamp s) (Stamp e) c = Ok q.
Proof.
  intros (Os & Ls & Ys) (Oe & Le & Ye) L. apply C04_ordered_accepted; cbn; auto. unfold elapsed. cbn. lia.
Qed.

Lemma accrual_positive c s e q : c <> THIRTY360 -> stamp_ok c s -> stamp_ok c e -> dt_abs s < dt_abs e -> compute_accrual_length (Stamp s) (Stamp e) c = Ok q -> (0 < q)%Q.
Proof.
  intros NC (Os & Ls & Ys) (Oe & Le & Ye) L E.
  assert (El : 0 < elapsed (Stamp s) (Stamp e)) by (unfold elapsed; cbn; lia).
  assert (Act : forall N, In (c, N) actual_over -> (0 < N)%Q -> (0 < q)%Q).
  { intros N I P. destruct (C05_timestamps_exact c N (Stamp s) (Stamp e) I Os Oe Ls Le ltac:(lia)) as (q' & E' & V). rewrite E in E'. injection E' as <-. rewrite V.
    apply Qlt_shift_div_l; [lra|]. rewrite Qmult_0_l. apply Qlt_shift_div_l; [reflexivity|]. rewrite Qmult_0_l. change 0%Q with (inject_Z 0). rewrite <- Zlt_Qlt. exact El. }
  destruct c; try contradiction.
  - apply (Act 360%Q); [left; reflexivity|reflexivity].
  - apply (Act 365%Q); [right; left; reflexivity|reflexivity].
  - apply (Act (1461 # 4)%Q); [right; right; left; reflexivity|reflexivity].
  - clear Act. destruct (stamp_actact (Stamp s) (Stamp e) Os Oe Ls Le (Ys eq_refl) (Ye eq_refl) ltac:(lia)) as (q' & E' & V). rewrite E in E'. injection E' as <-. rewrite V. clear E V.
    pose proof (day_frac_bounds (Stamp s) Os) as [F0 F1]. pose proof (day_frac_bounds (Stamp e) Oe) as [G0 G1].
    unfold aa_error. cbn [is_stamp andb aa_clock_t day_frac end_len] in *. 
    pose proof (aa_clock_succ (dt_date s)) as Ss. pose proof (aa_clock_succ (dt_date e)) as Se.
    set (fs := (inject_Z (dt_us s) / inject_Z us_per_day)%Q) in *. set (fe := (inject_Z (dt_us e) / inject_Z us_per_day)%Q) in *.
    assert (W : forall y, (0 < 1 / inject_Z (yearlen y))%Q). { intros y. apply Qlt_shift_div_l; [change 0%Q with (inject_Z 0); rewrite <- Zlt_Qlt; pose proof (yearlen_pos y); lia|]. rewrite Qmult_0_l. reflexivity. }
    pose proof (W (year (dt_date s + 1))) as Ws. pose proof (W (year (dt_date e + 1))) as We.
    set (ws := (1 / inject_Z (yearlen (year (dt_date s + 1)%Z)))%Q) in *. set (we := (1 / inject_Z (yearlen (year (dt_date e + 1)%Z)))%Q) in *.
    assert (D : dt_date s <= dt_date e) by (apply dt_abs_date; auto; lia).
    assert (Xs : (fs / inject_Z (yearlen (year (dt_date s + 1)%Z)) == fs * ws)%Q) by (unfold ws, Qdiv; ring).
    assert (Xe : (fe / inject_Z (yearlen (year (dt_date e + 1)%Z)) == fe * we)%Q) by (unfold we, Qdiv; ring).
    rewrite Xs, Xe. clear Xs Xe.
    destruct (Z.eq_dec (dt_date s) (dt_date e)) as [Ed|Nd].
    + assert (Ew : ws = we) by (unfold ws, we; rewrite Ed; reflexivity). rewrite Ed, Ew.
      assert (Lt : (fs < fe)%Q). { unfold fs, fe. apply Qmult_lt_compat_r; [reflexivity|]. rewrite <- Zlt_Qlt. unfold dt_abs in L. rewrite Ed in L. lia. }
      setoid_replace (aa_clock (dt_date e) + fe * we - (aa_clock (dt_date e) + fs * we) + (1 - fs - fe) / 2 * (we - we))%Q with ((fe - fs) * we)%Q by field.
      apply Qmult_lt_0_compat; lra.
    + assert (Cl : (aa_clock (dt_date s) + ws <= aa_clock (dt_date e))%Q).
      { apply Qle_trans with (aa_clock (dt_date s + 1)%Z); [lra|]. destruct (Z.eq_dec (dt_date s + 1) (dt_date e)) as [->|N2]; [lra|]. apply Qlt_le_weak, aa_clock_lt. lia. }
      apply Qlt_le_trans with ((ws + we) * ((1 - fs + fe) / 2))%Q; [apply Qmult_lt_0_compat; [lra|apply Qlt_shift_div_l; [reflexivity|lra]]|].
      setoid_replace (aa_clock (dt_date e) + fe * we - (aa_clock (dt_date s) + fs * ws) + (1 - fs - fe) / 2 * (we - ws))%Q
        with ((aa_clock (dt_date e) - aa_clock (dt_date s) - ws) + (ws + we) * ((1 - fs + fe) / 2))%Q by field. lra.
Qed.

(** ---- the time grid ---- *)
Definition grid_increasing (g : list datetime) : Prop := forall i j s t, (i < j)%nat -> nth_error g i = Some s -> nth_error g j = Some t -> dt_abs s < dt_abs t.

Lemma steps_increasing g : (forall i s t, nth_error g i = Some s -> nth_error g (S i) = Some t -> dt_abs s < dt_abs t) -> grid_increasing g.
Proof.
  intros H i j s t L. induction L as [|j L IH] in t |- *; intros A B; [eapply H; eauto|].
  destruct (nth_error g j) as [u|] eqn:E.
  - specialize (IH u A eq_refl). specialize (H _ _ _ E B). lia.
  - apply nth_error_None in E. assert (S j < List.length g)%nat by (apply nth_error_Some; congruence). lia.
Qed.

Record grid_facts (n : nat) (t e : datetime) (i : dt_step) (g : list datetime) : Prop := {
  gf_first : dt_abs t <= dt_abs e -> (0 < n)%nat -> nth_error g 0 = Some t;
  gf_empty : dt_abs e < dt_abs t -> g = [];
  gf_step : forall k x y, nth_error g k = Some x -> nth_error g (S k) = Some y -> add_step x i = Ok y;
  gf_in : forall x, In x g -> datetime_ok x /\ dt_abs t <= dt_abs x <= dt_abs e;
  gf_len : (List.length g <= n)%nat;
  gf_last : forall x, nth_error g (List.length g - 1) = Some x -> List.length g = n \/ exists y, add_step x i = Ok y /\ dt_abs e < dt_abs y
}.

Lemma dt_grid_facts n : forall t e i g, forward i -> datetime_ok t -> dt_grid_loop n true t e i = Ok g -> grid_facts n t e i g.
Proof.
  induction n as [|n IH]; intros t e i g F O; cbn [dt_grid_loop].
  - intros [= <-]. split; cbn; try lia; try tauto; try (intros; discriminate); auto.
    all: try (intros [|k] x y; discriminate). all: try (intros x; destruct (0 - 1)%nat; discriminate).
  - unfold dt_leb. destruct (dt_abs t <=? dt_abs e) eqn:C.
    + destruct (add_step t i) as [t'|] eqn:A; cbn [bind]; [|discriminate]. destruct (dt_grid_loop n true t' e i) as [r|] eqn:G; cbn [bind]; [|discriminate]. intros [= <-].
      destruct (add_step_forward _ _ _ F O A) as [O' L]. destruct (IH _ _ _ _ F O' G) as [P1 P2 P3 P4 P5 P6].
      split.
      * reflexivity.
      * lia.
      * intros [|k] x y; cbn [nth_error].
        -- intros [= <-] E. destruct r as [|z r]; [discriminate|]. injection E as <-.
           destruct (Z_lt_le_dec (dt_abs e) (dt_abs t')) as [Q|Q]; [discriminate (P2 Q)|]. destruct n; [discriminate G|]. specialize (P1 Q ltac:(lia)). injection P1 as ->. exact A.
        -- apply P3.
      * intros x [<-|I]; [split; [exact O|lia]|]. destruct (P4 x I). split; [auto|lia].
      * cbn. lia.
      * intros x. cbn [List.length]. replace (S (List.length r) - 1)%nat with (List.length r) by lia.
        destruct r as [|z r].
        -- cbn. intros [= <-]. destruct n as [|n]; [left; reflexivity|]. right. exists t'. split; [exact A|]. destruct (Z_lt_le_dec (dt_abs e) (dt_abs t')) as [Q|Q]; [exact Q|]. specialize (P1 Q ltac:(lia)). discriminate.
        -- cbn [List.length nth_error] in *. intros X. rewrite Nat.sub_succ, Nat.sub_0_r in P6. destruct (P6 x X) as [H|H]; [left; congruence|right; exact H].
    + intros [= <-]. split; cbn; try lia; try tauto; try (intros; discriminate); auto.
      all: try (intros [|k] x y; discriminate).
Qed.

Lemma pairwise_length' {A} (l : list A) : List.length (pairwise l) = (List.length l - 1)%nat.
Proof. induction l as [|a [|b l] IH]; cbn in *; auto. rewrite IH. lia. Qed.
Lemma pairwise_nth' {A} (l : list A) : forall k p, nth_error (pairwise l) k = Some p <-> nth_error l k = Some (fst p) /\ nth_error l (S k) = Some (snd p).
Proof.
  induction l as [|a l IH]; intros k p.
  - destruct k; cbn; split; try discriminate; intros [H _]; discriminate.
  - destruct l as [|b l]; [destruct k as [|[|k]]; cbn; split; try discriminate; intros [_ H]; discriminate|].
    change (pairwise (a :: b :: l)) with ((a, b) :: pairwise (b :: l)). destruct k as [|k]; [|apply IH].
    cbn. destruct p as [x y]. cbn. split; [intros [= -> ->]; auto|intros [[= ->] [= ->]]; reflexivity].
Qed.

(** ---- bisection ---- *)
Lemma bisect_loop_spec fuel g x : grid_increasing g -> forall lo hi, (lo <= hi <= List.length g)%nat -> (hi - lo < fuel)%nat ->
  (forall i t, (i < lo)%nat -> nth_error g i = Some t -> dt_abs t < dt_abs x) -> (forall i t, (hi <= i)%nat -> nth_error g i = Some t -> dt_abs x <= dt_abs t) ->
  let u := bisect_loop fuel g x lo hi in (u <= List.length g)%nat /\
  (forall i t, (i < u)%nat -> nth_error g i = Some t -> dt_abs t < dt_abs x) /\ (forall i t, (u <= i)%nat -> nth_error g i = Some t -> dt_abs x <= dt_abs t).
Proof.
  intros Inc. induction fuel as [|fuel IH]; intros lo hi B Fu Lo Hi; [lia|]. cbn [bisect_loop].
  destruct (Nat.ltb_spec lo hi) as [L|L].
  - assert (M : (lo <= Nat.div2 (lo + hi) < hi)%nat). { rewrite Nat.div2_div. split; [apply Nat.div_le_lower_bound; lia|apply Nat.div_lt_upper_bound; lia]. }
    set (mid := Nat.div2 (lo + hi)) in *. destruct (nth_error g mid) as [t|] eqn:E; [|apply nth_error_None in E; lia].
    unfold dt_ltb. destruct (dt_abs t <? dt_abs x) eqn:C.
    + apply IH; [lia|lia| |exact Hi]. intros i s I Es. destruct (Nat.eq_dec i mid) as [->|N]; [rewrite E in Es; injection Es as <-; lia|].
      pose proof (Inc i mid s t ltac:(lia) Es E). lia.
    + apply IH; [lia|lia|exact Lo|]. intros i s I Es. destruct (Nat.eq_dec i mid) as [->|N]; [rewrite E in Es; injection Es as <-; lia|].
      pose proof (Inc mid i t s ltac:(lia) E Es). lia.
  - cbv zeta. split; [lia|]. split; [exact Lo|]. intros i t I. apply Hi. lia.
Qed.

Lemma bisect_left_spec g x : grid_increasing g -> let u := bisect_left g x in (u <= List.length g)%nat /\
  (forall i t, (i < u)%nat -> nth_error g i = Some t -> dt_abs t < dt_abs x) /\ (forall i t, (u <= i)%nat -> nth_error g i = Some t -> dt_abs x <= dt_abs t).
Proof.
  intros Inc. apply bisect_loop_spec; auto; try lia. intros i t I E. assert (i < List.length g)%nat by (apply nth_error_Some; congruence). lia.
Qed.
Lemma bisect_hit g x j t : grid_increasing g -> nth_error g j = Some t -> dt_abs t = dt_abs x -> bisect_left g x = j.
Proof.
  intros Inc E Eq. destruct (bisect_left_spec g x Inc) as (L & A & B). set (u := bisect_left g x) in *.
  destruct (Nat.lt_trichotomy u j) as [H|[H|H]]; [|exact H|].
  - destruct (nth_error g u) as [s|] eqn:Es; [|apply nth_error_None in Es; assert (j < List.length g)%nat by (apply nth_error_Some; congruence); lia].
    pose proof (Inc u j s t H Es E). specialize (B u s (Nat.le_refl _) Es). lia.
  - specialize (A j t H E). lia.
Qed.
Lemma bisect_between g x j s t : grid_increasing g -> nth_error g j = Some s -> nth_error g (S j) = Some t -> dt_abs s < dt_abs x < dt_abs t -> bisect_left g x = S j.
Proof.
  intros Inc E E' Lt. destruct (bisect_left_spec g x Inc) as (L & A & B). set (u := bisect_left g x) in *.
  destruct (Nat.lt_trichotomy u (S j)) as [H|[H|H]]; [|exact H|].
  - specialize (B j s ltac:(lia) E). lia.
  - specialize (A (S j) t H E'). lia.
Qed.

Lemma item_nth {A} (l : list A) k a : nth_error l k = Some a -> item l (Z.of_nat k) = Ok a.
Proof.
  intros E. assert (k < List.length l)%nat by (apply nth_error_Some; congruence). unfold item, py_index.
  replace (Z.of_nat k <? 0) with false by lia. replace ((0 <=? Z.of_nat k) && (Z.of_nat k <? Z.of_nat (List.length l))) with true by lia. cbn [bind]. rewrite Nat2Z.id, E. reflexivity.
Qed.

(** ---- evaluation of a path on an increasing grid ---- *)
Lemma call_outside x s e c g p : dt_abs x < dt_abs s \/ dt_abs e < dt_abs x -> datetime_to_path_call x s e c g (Some p) = Err ValueError.
Proof. intros H. unfold datetime_to_path_call, dt_ltb. replace ((dt_abs x <? dt_abs s) || (dt_abs e <? dt_abs x)) with true by lia. reflexivity. Qed.

Lemma call_on_grid x s e c g p j v : grid_increasing g -> nth_error g j = Some x -> nth_error p j = Some v -> dt_abs s <= dt_abs x <= dt_abs e -> datetime_to_path_call x s e c (Some g) (Some p) = Ok v.
Proof.
  intros Inc Eg Ep B. unfold datetime_to_path_call, dt_ltb. replace ((dt_abs x <? dt_abs s) || (dt_abs e <? dt_abs x)) with false by lia.
  rewrite (bisect_hit g x j x Inc Eg eq_refl), (item_nth _ _ _ Eg). cbn [bind]. unfold dt_eqb. rewrite Z.eqb_refl. apply item_nth. exact Ep.
Qed.

Lemma call_between x s e c g p j gl gu prev next a b : grid_increasing g -> nth_error g j = Some gl -> nth_error g (S j) = Some gu -> nth_error p j = Some prev -> nth_error p (S j) = Some next ->
  dt_abs gl < dt_abs x < dt_abs gu -> dt_abs s <= dt_abs gl -> dt_abs gu <= dt_abs e ->
  compute_accrual_length (Stamp gl) (Stamp x) c = Ok a -> compute_accrual_length (Stamp x) (Stamp gu) c = Ok b ->
  datetime_to_path_call x s e c (Some g) (Some p) =
    if Qeq_bool (b + a) 0 then Err ZeroDivisionError else Ok (fun i => next i * Q2R (b / (b + a)) + prev i * (1 - Q2R (b / (b + a))))%R.
Proof.
  intros Inc El Eu Pl Pu B Bs Be A1 A2. unfold datetime_to_path_call, dt_ltb. replace ((dt_abs x <? dt_abs s) || (dt_abs e <? dt_abs x)) with false by lia.
  rewrite (bisect_between g x j gl gu Inc El Eu B), (item_nth _ _ _ Eu). cbn [bind]. unfold dt_eqb. replace (dt_abs x =? dt_abs gu) with false by lia.
  replace (Z.of_nat (S j) - 1) with (Z.of_nat j) by lia. rewrite (item_nth _ _ _ El). cbn [bind]. rewrite A1. cbn [bind]. rewrite A2. cbn [bind].
  destruct (Qeq_bool (b + a) 0); [reflexivity|]. rewrite (item_nth _ _ _ Pl). cbn [bind]. rewrite (item_nth _ _ _ Pu). reflexivity.
Qed.
