(** Multivariate Vasicek models: concrete cases meeting the hypotheses of C56-C59, C67-C69. *)
From Verif Require Import Base PyClass PyDate PyDateFacts DayCount DayCountFacts PyList KeyRate Curve CurveFacts Loan P_DayCount RVec Deriv Stochastic StochasticFacts P_Stochastic ShortRate P_ShortRate Vasicek Multi MultiFacts P_Multi P_Multi2 P_Multi3.
From Coq Require Import Reals Lra.
Open Scope R_scope.

(** A linear algebra meeting the contract: candidate answers, returned only after checking them. *)
Definition eqm (n : nat) (M N : mat) : bool := forallb (fun i => forallb (fun j => if Req_EM_T (M i j) (N i j) then true else false) (seq 0 n)) (seq 0 n).
Definition eqv (n : nat) (a b : vec) : bool := forallb (fun i => if Req_EM_T (a i) (b i) then true else false) (seq 0 n).
Lemma eqv_ok n a b : eqv n a b = true <-> forall i, (i < n)%nat -> a i = b i.
Proof.
  unfold eqv. rewrite forallb_forall. split; intros H i I.
  - specialize (H i). cbv beta in H. destruct (Req_EM_T (a i) (b i)); [assumption|]. discriminate H. apply in_seq. lia.
  - destruct (Req_EM_T (a i) (b i)) as [|X]; [reflexivity|]. exfalso. apply X, H. apply in_seq in I. lia.
Qed.
Lemma eqm_ok n M N : eqm n M N = true <-> forall i j, (i < n)%nat -> (j < n)%nat -> M i j = N i j.
Proof.
  unfold eqm. rewrite forallb_forall. split.
  - intros H i j I J. apply (proj1 (eqv_ok n (M i) (N i))); [|exact J]. apply H, in_seq. lia.
  - intros H i I. apply (proj2 (eqv_ok n (M i) (N i))). intros j J. apply H; [|exact J]. apply in_seq in I. lia.
Qed.
Definition demo_eig (n : nat) (K : mat) : vec * mat :=
  match n with
  | 1%nat => (K 0%nat, mat_of [[1]])
  | 2%nat => (vec_of [K 1%nat 1%nat; K 0%nat 0%nat], mat_of [[0; K 0%nat 0%nat - K 1%nat 1%nat]; [1; K 1%nat 0%nat]])
  | _ => (vec_of [3; 2; 1], mat_of [[0; 0; 1]; [0; 1; 2]; [1; 3; 3]])
  end.
Definition demo_inv (n : nat) (V : mat) : mat :=
  match n with
  | 1%nat => mat_of [[/ V 0%nat 0%nat]]
  | 2%nat => let d := V 0%nat 0%nat * V 1%nat 1%nat - V 0%nat 1%nat * V 1%nat 0%nat in mat_of [[V 1%nat 1%nat / d; - V 0%nat 1%nat / d]; [- V 1%nat 0%nat / d; V 0%nat 0%nat / d]]
  | _ => mat_of [[3; -3; 1]; [-2; 1; 0]; [1; 0; 0]]
  end.
Definition demo_root (M : mat) : mat := diag (fun i => sqrt (M i i)).
Definition la_demo : linalg := {|
  la_eig := fun n K => let '(lam, V) := demo_eig n K in if eqm n (mmul n K V) (fun i j => V i j * lam j) then Some (lam, V) else None;
  la_inv := fun n V => let W := demo_inv n V in if eqm n (mmul n V W) delta && eqm n (mmul n W V) delta then Some W else None;
  la_solve := fun n M b => let w := mvec n (demo_inv n M) b in if eqv n (mvec n M w) b then Some w else None;
  la_cholesky := fun n M => let L := demo_root M in if eqm n (mmul n L (tr L)) M then Some L else None |}.
Lemma la_demo_ok : linalg_ok la_demo.
Proof.
  constructor; cbn [la_demo la_eig la_inv la_solve la_cholesky].
  - intros n K lam V. destruct (demo_eig n K) as [lam' V']. destruct (eqm n _ _) eqn:E; [|discriminate]. intros X. injection X as <- <-. apply eqm_ok, E.
  - intros n V W. destruct (eqm n (mmul n V _) delta) eqn:E1; [|discriminate]. destruct (eqm n _ delta) eqn:E2 in |- *; [|discriminate]. intros X. injection X as <-. intros i j I J. split; [apply (proj1 (eqm_ok _ _ _) E1); assumption|].
    destruct (eqm n (mmul n (demo_inv n V) V) delta) eqn:E3; [apply (proj1 (eqm_ok _ _ _) E3); assumption|discriminate].
  - intros n M b w. destruct (eqv n _ _) eqn:E; [|discriminate]. intros X. injection X as <-. apply eqv_ok, E.
  - intros n M L. destruct (eqm n _ _) eqn:E; [|discriminate]. intros X. injection X as <-. intros i j I J. apply (proj1 (eqm_ok _ _ _) E); lia.
  - intros n M L. destruct (eqm n _ _); [|discriminate]. intros X. injection X as <-. intros i j I. unfold demo_root, diag, delta. destruct (Nat.eqb_spec i j); [lia|]. ring.
Qed.

Lemma mv_total la mu g level K Sg rows b u m h start draw : linalg_ok la -> new_multi la mu g level K Sg rows b (StepTimedelta u) = Ok m -> (0 < u)%Z -> stamp_ok (bm_dcc b) (bm_start b) -> stamp_ok (bm_dcc b) (bm_end b) ->
  (dt_abs (bm_start b) <= dt_abs (bm_end b))%Z -> (exists t, add_us (bm_end b) u = Ok t) -> (start < fresh h)%nat ->
  exists m' h', mv_generate m h start true draw = (m', h', Ok tt) /\ generated m m' /\ mv_state m' None = Ok (arr h start) /\ mv_start m' = bm_start b /\ mv_dcc m' = bm_dcc b.
Proof.
  intros La N U Ss Se L Te St. destruct (C48_total b u draw U Ss Se L Te) as (b' & [incs dts] & G).
  destruct (new_multi_inv _ _ _ _ _ _ _ _ _ _ N La) as (_ & _ & _ & _ & _ & _ & _ & _ & Mo).
  destruct (mv_generate m h start true draw) as [[m' h'] r] eqn:E. assert (Er : r = Ok tt).
  { unfold mv_generate, sr_generate_path, pr_generate_path in E. rewrite Mo in E. cbn [new_short_rate sr_proc new_process pr_bm pr_dt] in E. rewrite G in E. destruct (alloc _ _) as [cur h1]. destruct (euler _ _ _ _ _ _) as [h2 sol]. cbn [pr_path] in E. injection E as _ _ <-. reflexivity. }
  subst r. exists m', h'. split; [reflexivity|]. pose proof (gen_path m m h start true draw m' h' (Ok tt) (gen_start m) E) as Gm. split; [exact Gm|]. pose proof (generated_same _ _ Gm) as Sm.
  assert (Es : mv_start m' = bm_start b) by (rewrite (sm_start _ _ Sm); unfold mv_start, sr_bm; rewrite Mo; reflexivity).
  destruct (C56_path la mu g level K Sg rows b (StepTimedelta u) m h start draw m' h' La N U (proj1 Ss) (proj1 Se) L St E) as (gr & dts' & states & Tg & _ & _ & S0 & _ & _ & Hc).
  split; [|split; [exact Es|rewrite (sm_dcc _ _ Sm); unfold mv_dcc, sr_bm; rewrite Mo; reflexivity]].
  destruct (Hc 0%nat (bm_start b) _ (tg_first _ _ _ _ Tg) S0) as [Hs _]. unfold mv_state, mv_purchase in Hs |- *. rewrite Es. exact Hs.
Qed.
Lemma day_ok_aa k : (0 <= k <= 4)%Z -> stamp_ok ACTACT (t_day k).
Proof. intros K. unfold stamp_ok, datetime_ok, date_ok, t_day, min_date, max_date, us_per_day. cbn [dt_date dt_us]. repeat split; try lia. intros _. pose proof (year_mono 738886 (738886 + k) ltac:(lia)) as Y. assert (year 738886%Z = 2024%Z) by (vm_compute; reflexivity). lia. Qed.
Lemma accrual_aa k : (0 < k <= 4)%Z -> exists q, compute_accrual_length (Stamp (t_day 0)) (Stamp (t_day k)) ACTACT = Ok q /\ 0 < Q2R q.
Proof.
  intros K. assert (L : (dt_abs (t_day 0) < dt_abs (t_day k))%Z) by (unfold dt_abs, t_day, us_per_day; cbn [dt_date dt_us]; lia).
  destruct (accrual_total ACTACT (t_day 0) (t_day k) (day_ok_aa 0 ltac:(lia)) (day_ok_aa k ltac:(lia)) ltac:(lia)) as [q Q]. exists q. split; [exact Q|].
  pose proof (accrual_positive ACTACT (t_day 0) (t_day k) q ltac:(discriminate) (day_ok_aa 0 ltac:(lia)) (day_ok_aa k ltac:(lia)) L Q) as P. apply Qlt_Rlt in P. replace (Q2R 0) with 0 in P by (unfold Q2R; cbn; lra). exact P.
Qed.

(** The doubly mean reverting model with speeds 2 and 1, volatilities 1%, no correlation, from 2024-01-01 to 2024-01-05 by
    days, and every path of it started at (5%, 3%). *)
Definition two_rates : arrays := Arrays (fun _ => vec_of [1 / 20; 3 / 100]) 1.
Ltac ent := repeat match goal with |- context [Req_EM_T ?a ?b] => destruct (Req_EM_T a b) as [_|X]; [|exfalso; apply X; clear X] end.
Lemma demo_delta n : la_cholesky la_demo n delta = Some (demo_root delta).
Proof.
  cbn [la_demo la_cholesky]. replace (eqm n _ _) with true; [reflexivity|]. symmetry. apply eqm_ok. intros i j I J. unfold demo_root, mmul, tr, diag.
  rewrite (sumn_ext n _ (fun k => delta i k * (sqrt (delta i i) * (delta j k * sqrt (delta j j))))) by (intros; ring). rewrite (sumn_delta n i (fun k => sqrt (delta i i) * (delta j k * sqrt (delta j j))) I). rewrite !delta_refl, sqrt_1, delta_sym. ring.
Qed.
Lemma demo_variance v0 v1 : 0 <= v0 -> 0 <= v1 -> la_cholesky la_demo 2 (mat_of [[v0 * v0; v1 * v0 * 0]; [v1 * v0 * 0; v1 * v1]]) = Some (demo_root (mat_of [[v0 * v0; v1 * v0 * 0]; [v1 * v0 * 0; v1 * v1]])).
Proof.
  intros P0 P1. cbn [la_demo la_cholesky]. replace (eqm 2 _ _) with true; [reflexivity|]. symmetry. apply eqm_ok. intros i j I J. unfold demo_root, mmul, tr, diag.
  destruct i as [|[|i]]; [| |lia]; (destruct j as [|[|j]]; [| |lia]); cbn; rewrite ?sqrt_square by assumption; ring.
Qed.
Lemma demo_doubly_eig speed long_speed : long_speed <> speed -> exists lam V W, la_eig la_demo 2 (doubly_K speed long_speed) = Some (lam, V) /\ la_inv la_demo 2 V = Some W.
Proof.
  intros Di. eexists _, _, _. split.
  - cbn [la_demo la_eig demo_eig]. replace (eqm 2 _ _) with true; [reflexivity|]. symmetry. apply eqm_ok. intros i j I J. destruct i as [|[|i]]; [| |lia]; (destruct j as [|[|j]]; [| |lia]); cbn; ring.
  - cbn [la_demo la_inv]. match goal with |- (if eqm 2 ?A delta && eqm 2 ?B delta then _ else _) = _ => assert (E1 : eqm 2 A delta = true); [|assert (E2 : eqm 2 B delta = true); [|rewrite E1, E2; reflexivity]] end;
    (apply eqm_ok; intros i j I J; destruct i as [|[|i]]; [| |lia]; (destruct j as [|[|j]]; [| |lia]); cbn; unfold delta; cbn [Nat.eqb]; field; lra).
Qed.
Lemma demo_doubly speed long_speed v0 v1 mean : long_speed <> speed -> 0 <= v0 -> 0 <= v1 -> exists d, new_doubly la_demo (vec_of []) speed v1 mean long_speed v0 0 (t_day 0) (t_day 4) one_day = Ok d.
Proof.
  intros Di P0 P1. destruct (demo_doubly_eig speed long_speed Di) as (lam & V & W & E & I). unfold new_doubly. change (instantiate doubly_class ?x) with x. rewrite (demo_variance v0 v1 P0 P1). cbn [or_lin bind]. rewrite demo_delta. cbn [or_lin bind].
  unfold new_multi. cbn [bm_dim new_brownian Nat.eqb andb negb]. fold (doubly_K speed long_speed). rewrite E, I. cbn [or_lin bind]. eexists. reflexivity.
Qed.
Example C56_case : exists d m a h, new_doubly la_demo (vec_of []) 2 (1 / 100) (1 / 20) 1 (1 / 100) 0 (t_day 0) (t_day 4) one_day = Ok d /\ mv_generate (do_multi d) two_rates 0 true ones = (m, h, Ok tt) /\
  generated (do_multi d) m /\ mv_state m None = Ok (vec_of [1 / 20; 3 / 100]) /\ mv_accrual m (Stamp (t_day 4)) None = Ok a /\ 0 < a /\ dt_leb (t_day 4) (mv_purchase m None) = false /\ mean_reverting 2 (doubly_K 2 1) /\
  forward one_day /\ datetime_ok (t_day 0) /\ datetime_ok (t_day 4).
Proof.
  destruct (demo_doubly 2 1 (1 / 100) (1 / 100) (1 / 20)) as [d N]; try lra. destruct (new_doubly_inv _ _ _ _ _ _ _ _ _ _ _ _ la_demo_ok N) as (Sg & L & _ & _ & Nm & _).
  destruct (mv_total la_demo _ _ _ _ _ _ (new_brownian (t_day 0) (t_day 4) 2 L ACTACT) 86400000000 (do_multi d) two_rates 0 ones la_demo_ok Nm ltac:(lia) (day_ok_aa 0 ltac:(lia)) (day_ok_aa 4 ltac:(lia))) as (m & h & G & Gm & Sx & Es & Ed).
  { apply Z.leb_le. vm_compute. reflexivity. } { eexists. vm_compute. reflexivity. } { cbn. lia. }
  destruct (accrual_aa 4 ltac:(lia)) as (q & Q & P). exists d, m, (Q2R q), h. split; [exact N|]. split; [exact G|]. split; [exact Gm|]. split; [exact Sx|]. split; [unfold mv_accrual, mv_purchase; rewrite Es, Ed; cbn [bm_start bm_dcc new_brownian]; rewrite Q; reflexivity|]. split; [exact P|].
  split; [unfold mv_purchase; rewrite Es; apply Z.leb_gt; vm_compute; reflexivity|]. split; [apply doubly_mean_reverting; lra|]. split; [exact (eq_refl : (0 < 86400000000)%Z)|]. split; [apply (day_ok_aa 0 ltac:(lia))|apply (day_ok_aa 4 ltac:(lia))].
Qed.
Print Assumptions C56_case.

(** One factor, reversion 1/2 to 5%, volatility 1%; a two-bond riskless portfolio of 2- and 4-day bonds. *)
Definition one_factor : res multi := new_multi la_demo 0 (vec_of [1]) (vec_of [1 / 20]) (mat_of [[1 / 2]]) (mat_of [[1 / 100]]) (1, 1, 1)%nat bm_2024 one_day.
Lemma one_factor_ok : exists m, one_factor = Ok m /\ mv_lam m = mat_of [[1 / 2]] 0%nat /\ mv_V m = mat_of [[1]] /\ mv_Vi m 0%nat 0%nat = 1 /\ mv_g m = vec_of [1].
Proof.
  unfold one_factor, new_multi. cbn [bm_dim bm_2024 new_brownian Nat.eqb andb negb la_demo la_eig demo_eig].
  match goal with |- context [eqm 1 ?A ?B] => assert (E0 : eqm 1 A B = true) by (apply eqm_ok; intros [|i] [|j] I J; try lia; cbn; ring) end. rewrite E0. cbn [la_demo la_inv demo_inv].
  match goal with |- context [eqm 1 ?A delta && eqm 1 ?B delta] => assert (E1 : eqm 1 A delta = true) by (apply eqm_ok; intros [|i] [|j] I J; try lia; cbn; unfold delta; cbn [Nat.eqb]; field);
    assert (E2 : eqm 1 B delta = true) by (apply eqm_ok; intros [|i] [|j] I J; try lia; cbn; unfold delta; cbn [Nat.eqb]; field) end.
  rewrite E1, E2. cbn [andb or_lin bind]. eexists. split; [reflexivity|]. split; [reflexivity|]. split; [reflexivity|]. split; [cbn; field|reflexivity].
Qed.
Definition level_heap (x : R) : arrays := Arrays (fun _ _ => x) 1.
Lemma one_factor_path x m : one_factor = Ok m -> exists m' h, mv_generate m (level_heap x) 0 true ones = (m', h, Ok tt) /\ generated m m' /\ mv_state m' None = Ok (fun _ => x) /\ forall k, (0 <= k <= 4)%Z -> mv_accrual m' (Stamp (t_day k)) None = Ok (IZR k / 360).
Proof.
  intros N. destruct (mv_total la_demo _ _ _ _ _ _ bm_2024 86400000000 m (level_heap x) 0 ones la_demo_ok N ltac:(lia) (day_ok 0 ltac:(lia)) (day_ok 4 ltac:(lia))) as (m' & h & G & Gm & Sx & Es & Ed).
  { apply Z.leb_le. vm_compute. reflexivity. } { eexists. vm_compute. reflexivity. } { cbn. lia. }
  exists m', h. split; [exact G|]. split; [exact Gm|]. split; [exact Sx|]. intros k Hk. destruct (accrual_day k Hk) as (T & HT & VT). unfold mv_accrual, mv_purchase. rewrite Es, Ed. cbn [bm_start bm_dcc bm_2024 new_brownian]. rewrite HT. cbn [bind]. rewrite VT. reflexivity.
Qed.
Lemma one_factor_coefficient m m' a : one_factor = Ok m -> generated m m' -> coefficient_term m' a 0%nat = - (1 - exp (- (1 / 2) * a)) * 2 /\ mv_n m' = 1%nat.
Proof.
  intros N G. destruct one_factor_ok as (m1 & N1 & L & V & Vi & Eg). rewrite N in N1. injection N1 as <-. pose proof (generated_same _ _ G) as Sm. destruct (new_multi_inv _ _ _ _ _ _ _ _ _ _ N la_demo_ok) as (_ & _ & En & _). cbn in En.
  rewrite (sm_n _ _ Sm), En. split; [|reflexivity]. unfold coefficient_term, reversion_inv, exp_reversion. rewrite (sm_n _ _ Sm), (sm_g _ _ Sm), (sm_lam _ _ Sm), (sm_V _ _ Sm), (sm_Vi _ _ Sm), En, L, V, Eg. unfold mvec, dot, mmul, msub, tr, diag. cbn [sumn]. rewrite Vi. cbn. unfold delta. cbn [Nat.eqb].
  set (e := exp _). field.
Qed.
Lemma mean_reverting_one k : 0 < k -> mean_reverting 1 (mat_of [[k]]).
Proof.
  intros K. assert (H : forall l, eigenvalue 1 (mat_of [[k]]) l -> l = k). { intros l (x & (i & I & X) & E). specialize (E 0%nat ltac:(lia)). cbn in E. destruct i as [|i]; [|lia]. apply (Rmult_eq_reg_r (x 0%nat)); [lra|exact X]. }
  intros l l' E E'. rewrite (H l E), (H l' E'). lra.
Qed.
Example C57_case : exists m x m' h ws, one_factor = Ok m /\ mean_reverting 1 (mat_of [[1 / 2]]) /\ mv_generate m (level_heap x) 0 true ones = (m', h, Ok tt) /\ generated m m' /\
  riskless_weights la_demo m' [Stamp (t_day 2); Stamp (t_day 4)] None = Ok ws.
Proof.
  destruct one_factor_ok as (m & N & _). 
  assert (M : forall x m' h, mv_generate m (level_heap x) 0 true ones = (m', h, Ok tt) -> generated m m' -> mv_state m' None = Ok (fun _ => x) -> (forall k, (0 <= k <= 4)%Z -> mv_accrual m' (Stamp (t_day k)) None = Ok (IZR k / 360)) ->
     Fm m' (2 / 360) (fun _ => x) * coefficient_term m' (2 / 360) 0%nat <> Fm m' (4 / 360) (fun _ => x) * coefficient_term m' (4 / 360) 0%nat -> exists ws, riskless_weights la_demo m' [Stamp (t_day 2); Stamp (t_day 4)] None = Ok ws).
  { intros x m' h _ G Sx Ac Ne. destruct (one_factor_coefficient m m' 0 N G) as [_ En]. unfold riskless_weights. rewrite En. cbn [List.length Nat.add Nat.eqb negb nth_error firstn mapM].
    rewrite (gradient_value m' (Stamp (t_day 4)) None _ _ (Ac 4%Z ltac:(lia)) Sx), (gradient_value m' (Stamp (t_day 2)) None _ _ (Ac 2%Z ltac:(lia)) Sx). cbn [bind la_demo la_solve].
    match goal with |- context [eqv 1 ?A ?B] => assert (E : eqv 1 A B = true) end; [|rewrite E; cbn [or_lin bind]; eexists; reflexivity].
    apply eqv_ok. intros [|i] I; [|lia]. unfold mvec, dot, vsub, vscal. cbn. field. intros Z. apply Ne. rewrite <- (Rplus_0_l (Fm m' (4 / 360) _ * _)), <- Z. unfold Rdiv. ring. }
  destruct (one_factor_path 0 m N) as (m0 & h0 & G0 & Gm0 & S0 & A0). destruct (one_factor_path 1 m N) as (m1 & h1 & G1 & Gm1 & S1 & A1).
  destruct (Req_EM_T (Fm m0 (2 / 360) (fun _ => 0) * coefficient_term m0 (2 / 360) 0%nat) (Fm m0 (4 / 360) (fun _ => 0) * coefficient_term m0 (4 / 360) 0%nat)) as [E|E];
    [|destruct (M 0 m0 h0 G0 Gm0 S0 A0 E) as [ws W]; exists m, 0, m0, h0, ws; split; [exact N|]; split; [apply mean_reverting_one; lra|]; auto].
  exists m, 1, m1, h1. destruct (M 1 m1 h1 G1 Gm1 S1 A1) as [ws W]; [|exists ws; split; [exact N|]; split; [apply mean_reverting_one; lra|]; auto].
  intros E'. destruct (one_factor_coefficient m m0 (2 / 360) N Gm0) as [B2 En0]. destruct (one_factor_coefficient m m0 (4 / 360) N Gm0) as [B4 _]. destruct (one_factor_coefficient m m1 (2 / 360) N Gm1) as [B2' En1]. destruct (one_factor_coefficient m m1 (4 / 360) N Gm1) as [B4' _].
  assert (A : forall a, intercept_term m1 a = intercept_term m0 a).
  { intros a. pose proof (generated_same _ _ Gm0) as Sa. pose proof (generated_same _ _ Gm1) as Sb. unfold intercept_term, reversion_inv. rewrite (sm_n _ _ Sa), (sm_n _ _ Sb), (sm_mu _ _ Sa), (sm_mu _ _ Sb), (sm_g _ _ Sa), (sm_g _ _ Sb), (sm_level _ _ Sa), (sm_level _ _ Sb), (sm_lam _ _ Sa), (sm_lam _ _ Sb), (sm_V _ _ Sa), (sm_V _ _ Sb), (sm_Vi _ _ Sa), (sm_Vi _ _ Sb), (sm_C _ _ Sa), (sm_C _ _ Sb). reflexivity. }
  unfold Fm in E, E'. rewrite En0 in E. rewrite En1, !A in E'. unfold dot in E, E'. cbn [sumn] in E, E'. rewrite B2, B4 in E. rewrite B2', B4' in E'. rewrite !exp_plus in E, E'.
  assert (X24 : exp (- (1 / 2) * (4 / 360)) < exp (- (1 / 2) * (2 / 360))) by (apply exp_increasing; lra). assert (X2 : exp (- (1 / 2) * (2 / 360)) < exp 0) by (apply exp_increasing; lra). rewrite exp_0 in X2.
  set (e2 := exp (- (1 / 2) * (2 / 360))) in *. set (e4 := exp (- (1 / 2) * (4 / 360))) in *. set (b2 := - (1 - e2) * 2) in *. set (b4 := - (1 - e4) * 2) in *.
  assert (Lb : b4 < b2) by (unfold b2, b4; lra). assert (Lb2 : b2 < 0) by (unfold b2; lra).
  rewrite !Rmult_0_r, exp_0 in E. rewrite exp_0, !Rmult_1_r in E'.
  set (p2 := exp (intercept_term m0 (2 / 360))) in *. set (p4 := exp (intercept_term m0 (4 / 360))) in *. assert (P2 : 0 < p2) by apply exp_pos. assert (P4 : 0 < p4) by apply exp_pos.
  assert (Ex : exp b4 < exp b2) by (apply exp_increasing, Lb).
  assert (Q : p4 * b4 * (exp b2 - exp b4) = 0).
  { assert (F : p2 * b2 = p4 * b4) by lra. assert (F' : p2 * b2 * exp b2 = p4 * b4 * exp b4) by lra. rewrite F in F'. lra. }
  apply Rmult_integral in Q. destruct Q as [Q|Q]; [|lra]. apply Rmult_integral in Q. lra.
Qed.
Print Assumptions C57_case.

Example C58_case : exists m m' h c l f, one_factor = Ok m /\ mean_reverting 1 (mat_of [[1 / 2]]) /\ mv_generate m (level_heap (1 / 20)) 0 true ones = (m', h, Ok tt) /\ generated m m' /\
  yield_covariance m' (List.map Stamp [t_day 2; t_day 4]) None = Ok c /\ mv_price_convexities m' [t_day 2; t_day 4] None = Ok l /\ forward_covariance m' [t_day 2; t_day 4] None = Ok f /\
  mv_accrual m' (Stamp (t_day 2)) None = Ok (2 / 360).
Proof.
  destruct one_factor_ok as (m & N & _). destruct (one_factor_path (1 / 20) m N) as (m' & h & G & Gm & Sx & Ac). pose proof (Ac 2%Z ltac:(lia)) as A2. pose proof (Ac 4%Z ltac:(lia)) as A4.
  assert (Es : some_matures_by [t_day 2; t_day 4] (mv_purchase m' None) = false).
  { unfold mv_purchase. rewrite (sm_start _ _ (generated_same _ _ Gm)). destruct (new_multi_inv _ _ _ _ _ _ _ _ _ _ N la_demo_ok) as (_ & _ & _ & _ & _ & _ & _ & _ & Mo). unfold mv_start, sr_bm. rewrite Mo. vm_compute. reflexivity. }
  exists m, m', h. eexists _, _, _. split; [exact N|]. split; [apply mean_reverting_one; lra|]. split; [exact G|]. split; [exact Gm|]. split; [|split; [|split; [|exact A2]]].
  - unfold yield_covariance. cbn [List.map mapM]. unfold mv_yield_coeffs, mv_price_coeffs. rewrite A2, A4. cbn [bind]. reflexivity.
  - unfold mv_price_convexities. rewrite Es. unfold yield_covariance. cbn [List.map mapM]. unfold mv_price, mv_yield_coeffs, mv_price_coeffs. rewrite A2, A4. cbn [bind]. rewrite Sx. cbn [bind]. reflexivity.
  - unfold forward_covariance. rewrite Es. cbn [mapM]. unfold mv_coeff_derivs, mv_yield_coeffs, mv_price_coeffs. rewrite A2, A4. cbn [bind]. reflexivity.
Qed.
Print Assumptions C58_case.
(** The one-factor model has the coordinate axis for eigenvector, as C68_diagonal and C68_orthonormal ask. *)
Example C68_case : exists m lam V, one_factor = Ok m /\ mean_reverting (bm_dim bm_2024) (mat_of [[1 / 2]]) /\ la_eig la_demo (bm_dim bm_2024) (mat_of [[1 / 2]]) = Some (lam, V) /\
  (forall i j, (i < bm_dim bm_2024)%nat -> (j < bm_dim bm_2024)%nat -> V i j = delta i j /\ sumn (bm_dim bm_2024) (fun k => V k i * V k j) = delta i j).
Proof.
  destruct one_factor_ok as (m & N & _). exists m. pose proof (new_multi_eig _ _ _ _ _ _ _ _ _ _ N) as E. destruct one_factor_ok as (m1 & N1 & _ & V1 & _). rewrite N in N1. injection N1 as <-. rewrite V1 in E.
  eexists _, _. split; [exact N|]. split; [apply mean_reverting_one; lra|]. split; [exact E|]. intros [|i] [|j] I J; cbn in I, J; try lia. split; cbn; unfold delta; cbn [Nat.eqb]; ring.
Qed.
Print Assumptions C68_case.
(** A two-factor diagonal model has the axes too, but numpy.linalg.eig decides their order: see [axes]. *)
Definition axes : linalg := {|
  la_eig := fun n K => if eqm n K (diag (fun i => K i i)) then Some (fun i => K i i, delta) else None;
  la_inv := fun n V => if eqm n V delta then Some delta else None; la_solve := fun _ _ _ => None; la_cholesky := fun _ _ => None |}.
Lemma axes_ok : linalg_ok axes.
Proof.
  assert (Dl : forall n i j, (i < n)%nat -> mmul n delta delta i j = delta i j) by (intros n i j I; apply mmul_left_id; [reflexivity|exact I]).
  constructor; cbn [axes la_eig la_inv la_solve la_cholesky]; try discriminate.
  - intros n K lam V. destruct (eqm n K _) eqn:E; [|discriminate]. intros X. injection X as <- <-. intros i j I J. rewrite mmul_right_id by (try reflexivity; exact J). rewrite (proj1 (eqm_ok _ _ _) E) by assumption. unfold diag, delta. destruct (Nat.eqb_spec i j) as [->|]; ring.
  - intros n V W. destruct (eqm n V delta) eqn:E; [|discriminate]. intros X. injection X as <-. intros i j I J. pose proof (proj1 (eqm_ok _ _ _) E) as H. split.
    + rewrite mmul_right_id by (try reflexivity; exact J). apply H; assumption.
    + rewrite mmul_left_id by (try reflexivity; exact I). apply H; assumption.
Qed.
Definition bm_two : brownian := new_brownian (t_day 0) (t_day 4) 2 delta ACT360.
Definition two_speeds : mat := mat_of [[1; 0]; [0; 2]].
Definition two_axes : res multi := new_multi axes 0 (vec_of [1; 1]) (vec_of [1 / 20; 1 / 50]) two_speeds (mat_of [[1 / 100; 0]; [1 / 100; 1 / 50]]) (2, 2, 2)%nat bm_two one_day.
Lemma two_speeds_reverting : mean_reverting 2 two_speeds.
Proof.
  assert (H : forall l, eigenvalue 2 two_speeds l -> l = 1 \/ l = 2).
  { intros l (x & (i & I & X) & E). pose proof (E 0%nat ltac:(lia)) as E0. pose proof (E 1%nat ltac:(lia)) as E1. cbn in E0, E1. destruct i as [|[|i]]; [left|right|lia]; [apply (Rmult_eq_reg_r (x 0%nat))|apply (Rmult_eq_reg_r (x 1%nat))]; try exact X; lra. }
  intros l l' E E'. apply H in E. apply H in E'. destruct E as [-> | ->], E' as [-> | ->]; lra.
Qed.
Example C68_two_factors : exists m m' h lam V, two_axes = Ok m /\ mean_reverting 2 two_speeds /\ mv_generate m two_rates 0 true ones = (m', h, Ok tt) /\ generated m m' /\
  la_eig axes 2 two_speeds = Some (lam, V) /\ (forall i j, (i < 2)%nat -> (j < 2)%nat -> V i j = delta i j) /\ mv_accrual m' (Stamp (t_day 4)) None = Ok (4 / 360).
Proof.
  assert (E : eqm 2 two_speeds (diag (fun i => two_speeds i i)) = true) by (apply eqm_ok; intros i j I J; unfold diag, delta; destruct i as [|[|i]]; [| |lia]; (destruct j as [|[|j]]; [| |lia]); cbn; ring).
  assert (Ed : eqm 2 delta delta = true) by (apply eqm_ok; reflexivity).
  assert (N : exists m, two_axes = Ok m) by (unfold two_axes, new_multi; cbn [bm_dim bm_two new_brownian Nat.eqb andb negb axes la_eig la_inv]; rewrite E; cbn [axes la_inv]; rewrite Ed; cbn [or_lin bind]; eexists; reflexivity).
  destruct N as [m N].
  destruct (mv_total axes _ _ _ _ _ _ bm_two 86400000000 m two_rates 0 ones axes_ok N ltac:(lia) (day_ok 0 ltac:(lia)) (day_ok 4 ltac:(lia))) as (m' & h & G & Gm & Sx & Es & Dc).
  { apply Z.leb_le. vm_compute. reflexivity. } { eexists. vm_compute. reflexivity. } { cbn. lia. }
  exists m, m', h. eexists _, _. split; [exact N|]. split; [exact two_speeds_reverting|]. split; [exact G|]. split; [exact Gm|]. split; [cbn [axes la_eig]; rewrite E; reflexivity|]. split; [reflexivity|].
  destruct (accrual_day 4 ltac:(lia)) as (T & HT & VT). unfold mv_accrual, mv_purchase. rewrite Es, Dc. cbn [bm_start bm_dcc bm_two new_brownian]. rewrite HT. cbn [bind]. rewrite VT. reflexivity.
Qed.
Print Assumptions C68_two_factors.

(** ---- the three-factor models: their constructors' bodies succeed ---- *)
Lemma demo_three v : la_cholesky la_demo 3 (mat_of [[v 0%nat * v 0%nat; v 0%nat * v 1%nat * 0; v 0%nat * v 2%nat * 0]; [v 0%nat * v 1%nat * 0; v 1%nat * v 1%nat; v 1%nat * v 2%nat * 0]; [v 0%nat * v 2%nat * 0; v 1%nat * v 2%nat * 0; v 2%nat * v 2%nat]]) <> None \/ exists i : nat, v i < 0.
Proof.
  destruct (Rlt_dec (v 0%nat) 0) as [H|P0]; [right; exists 0%nat; exact H|]. destruct (Rlt_dec (v 1%nat) 0) as [H|P1]; [right; exists 1%nat; exact H|]. destruct (Rlt_dec (v 2%nat) 0) as [H|P2]; [right; exists 2%nat; exact H|]. left.
  cbn [la_demo la_cholesky]. replace (eqm 3 _ _) with true; [discriminate|]. symmetry. apply eqm_ok. intros i j I J. unfold demo_root, mmul, tr, diag.
  destruct i as [|[|[|i]]]; [| | |lia]; (destruct j as [|[|[|j]]]; [| | |lia]); cbn; rewrite ?sqrt_square by lra; ring.
Qed.
Lemma demo_three_K k : (forall i j, (i < 3)%nat -> (j < 3)%nat -> k i j = mat_of [[1; 0; 0]; [-2; 2; 0]; [0; -3; 3]] i j) -> exists lam V W, la_eig la_demo 3 k = Some (lam, V) /\ la_inv la_demo 3 V = Some W.
Proof.
  intros Hk. eexists _, _, _. split.
  - cbn [la_demo la_eig demo_eig]. replace (eqm 3 _ _) with true; [reflexivity|]. symmetry. apply eqm_ok. intros i j I J. unfold mmul. rewrite (sumn_ext 3 _ (fun q => mat_of [[1; 0; 0]; [-2; 2; 0]; [0; -3; 3]] i q * mat_of [[0; 0; 1]; [0; 1; 2]; [1; 3; 3]] q j)) by (intros q Hq; rewrite Hk by assumption; reflexivity).
    destruct i as [|[|[|i]]]; [| | |lia]; (destruct j as [|[|[|j]]]; [| | |lia]); cbn; ring.
  - cbn [la_demo la_inv demo_inv]. match goal with |- (if eqm 3 ?A delta && eqm 3 ?B delta then _ else _) = _ => assert (E1 : eqm 3 A delta = true); [|assert (E2 : eqm 3 B delta = true); [|rewrite E1, E2; reflexivity]] end;
    (apply eqm_ok; intros i j I J; destruct i as [|[|[|i]]]; [| | |lia]; (destruct j as [|[|[|j]]]; [| | |lia]); cbn; unfold delta; cbn [Nat.eqb]; ring).
Qed.
Example C59_trebly_case : exists m, instantiate (Class trebly_class [] calibration_names) (trebly_init la_demo 3 (1 / 100) 2 (1 / 100) (1 / 20) 1 (1 / 100) 0 0 0 (t_day 0) (t_day 4) one_day) = Ok m.
Proof.
  rewrite (proj1 (C59_subclass _ calibration_names _ trebly_class (or_introl eq_refl))) by auto. unfold trebly_init. rewrite demo_delta. cbn [or_lin bind].
  destruct (demo_three (fun _ => 1 / 100)) as [H|[i H]]; [|cbn in H; lra]. cbv beta in H. destruct (la_cholesky la_demo 3 _) as [Sg|] in H |- *; [|congruence]. cbn [or_lin bind].
  unfold new_multi. cbn [bm_dim new_brownian Nat.eqb andb negb].
  destruct (demo_three_K (mat_of [[1; 0; 0]; [- (2); 2; 0]; [0; - (3); 3]])) as (lam & V & W & E & I); [intros i j Hi Hj; destruct i as [|[|[|i]]]; [| | |lia]; (destruct j as [|[|[|j]]]; [| | |lia]); cbn; ring|].
  rewrite E, I. cbn [or_lin bind]. eexists. reflexivity.
Qed.
Example C59_market_price_case : exists m, instantiate (Class market_price_class [] calibration_names) (market_price_init la_demo 3 (1 / 100) 2 2 (1 / 20) 1 (1 / 100) (1 / 10) 0 0 0 (t_day 0) (t_day 4) one_day) = Ok m.
Proof.
  rewrite (proj1 (C59_subclass _ calibration_names _ market_price_class (or_intror eq_refl))) by auto. unfold market_price_init. rewrite demo_delta. cbn [or_lin bind]. unfold fdiv. destruct (Req_EM_T 2 0) as [X|_]; [lra|]. cbn [bind].
  destruct (demo_three (vec_of [1 / 100; 2; 1 / 100])) as [H|[i H]]; [|exfalso; destruct i as [|[|[|[|i]]]]; cbn in H; lra]. cbn [vec_of nth] in H. change (vec_of [1 / 100; 2; 1 / 100] 0%nat) with (1 / 100) in H. change (vec_of [1 / 100; 2; 1 / 100] 1%nat) with 2 in H. change (vec_of [1 / 100; 2; 1 / 100] 2%nat) with (1 / 100) in H.
  destruct (la_cholesky la_demo 3 _) as [Sg|] in H |- *; [|congruence]. cbn [or_lin bind].
  unfold new_multi. cbn [bm_dim new_brownian Nat.eqb andb negb].
  destruct (demo_three_K (mat_of [[1; 0; 0]; [- (2); 2; 0]; [0; - (3); 3]])) as (lam & V & W & E & I); [intros i j Hi Hj; destruct i as [|[|[|i]]]; [| | |lia]; (destruct j as [|[|[|j]]]; [| | |lia]); cbn; ring|].
  rewrite E, I. cbn [or_lin bind]. eexists. reflexivity.
Qed.
Print Assumptions C59_market_price_case.
(** C69: a doubly mean reverting model whose parameters are set from the dictionary, and one built from parameters. *)
Example C69_case : (exists d d' d'', new_doubly la_demo (vec_of []) 2 (1 / 100) (1 / 20) 1 (1 / 100) 0 (t_day 0) (t_day 4) one_day = Ok d /\
    doubly_set_vol (do_put d [3; 1 / 10; 4; 1 / 5; 1 / 2] [1 / 25] [1; 2]) = Ok d' /\ doubly_set_state d' = Ok d'' /\ do_speed d'' = 4 /\ do_initial d'' 1%nat = 2) /\
  exists d h, doubly_from_parameters la_demo (vec_of []) [1; 1 / 100; 2; 1 / 100; 0] [1 / 20] (t_day 0) (t_day 4) one_day two_rates 0 ones = Ok (d, h).
Proof.
  destruct C56_case as (d & m & a & h & N & G & _). split.
  - exists d. eexists _, _. split; [exact N|]. split; [reflexivity|]. split; [reflexivity|]. split; reflexivity.
  - unfold doubly_from_parameters. rewrite N. cbn [bind]. rewrite G. cbn [bind]. eexists _, _. reflexivity.
Qed.
Print Assumptions C69_case.
