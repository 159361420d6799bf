(** Property theorems C20-C25 (key rates).  Statements use the model KeyRate.v and the abbreviations below. *)
From Verif Require Import Base PyDate PyDateFacts DayCount DayCountFacts LoopFacts KeyRate KeyRateFacts.
From Coq Require Import Sorting.Sorted Permutation ListDec.
Open Scope Z_scope.
Ltac Zify.zify_post_hook ::= Z.div_mod_to_equations.

(** ---- specification vocabulary ---- *)
(** calls a user can make on a key rate *)
Inductive kr_op := SetPrior (p : option date) | SetNext (n : option date) | SetBump (b : Q).
(** effect on the object; a raising setter leaves it unchanged *)
Definition kr_apply (k : kr) (o : kr_op) : kr :=
  match o with
  | SetPrior p => match set_prior_date p k with Ok k' => k' | Err _ => k end
  | SetNext n => match set_next_date n k with Ok k' => k' | Err _ => k end
  | SetBump b => set_bump_val b k
  end.
Definition kr_run (k : kr) (ops : list kr_op) : kr := fold_left kr_apply ops k.

(** prior < key rate date < next, as far as present *)
Definition ordered (k : kr) : Prop :=
  (forall p, kr_prior k = Some p -> p < kr_date k) /\ (forall n, kr_next k = Some n -> kr_date k < n).

(** An object obtained from the constructor (with neighbours in order) by any history of calls. *)
Definition reachable (k : kr) : Prop :=
  exists c d p n ops, (forall x, p = Some x -> x < d) /\ (forall x, n = Some x -> d < x) /\ k = kr_run (new_key_rate c d p n) ops.

(** dates the convention can count from: all, except those of year 1 for Actual/Actual *)
Definition countable (c : dcc) (d : date) : Prop := date_ok d /\ (c = ACTACT -> 2 <= year d).

(** ---- C23 ---- *)
Lemma apply_inv k o : ordered k -> kr_fun k = (kr_prior k, kr_date k, kr_next k) ->
  ordered (kr_apply k o) /\ kr_fun (kr_apply k o) = (kr_prior (kr_apply k o), kr_date (kr_apply k o), kr_next (kr_apply k o)) /\
  kr_date (kr_apply k o) = kr_date k /\ kr_dcc (kr_apply k o) = kr_dcc k.
Proof.
  intros [P N] F. destruct o as [[p|]|[n|]|b]; cbn [kr_apply set_prior_date set_next_date].
  - destruct (kr_date k <=? p) eqn:E; [repeat split; auto|]. repeat split; cbn; auto. intros x [= <-]. lia.
  - repeat split; cbn; auto. discriminate.
  - destruct (n <=? kr_date k) eqn:E; [repeat split; auto|]. repeat split; cbn; auto. intros x [= <-]. lia.
  - repeat split; cbn; auto. discriminate.
  - repeat split; cbn; auto.
Qed.

Lemma run_inv ops : forall k, ordered k -> kr_fun k = (kr_prior k, kr_date k, kr_next k) ->
  ordered (kr_run k ops) /\ kr_fun (kr_run k ops) = (kr_prior (kr_run k ops), kr_date (kr_run k ops), kr_next (kr_run k ops)) /\
  kr_date (kr_run k ops) = kr_date k /\ kr_dcc (kr_run k ops) = kr_dcc k.
Proof.
  induction ops as [|o ops IH]; intros k O F; [repeat split; auto; apply O|].
  destruct (apply_inv k o O F) as (O' & F' & D & C). destruct (IH (kr_apply k o) O' F') as (O2 & F2 & D2 & C2).
  unfold kr_run in *. cbn. repeat split; auto; try apply O2; congruence.
Qed.

(** The neighbours of every reachable key rate are in order, and calling it gives the adjustment of its current dates,
    bump and convention; its date and convention never change. *)
Theorem C23_guards : forall c d p n ops, (forall x, p = Some x -> x < d) -> (forall x, n = Some x -> d < x) ->
  let k := kr_run (new_key_rate c d p n) ops in
  ordered k /\ kr_date k = d /\ kr_dcc k = c /\
  forall q, kr_call k q = adjustment (kr_dcc k) (kr_bump k) (kr_prior k, kr_date k, kr_next k) q.
Proof.
  intros c d p n ops P N k. destruct (run_inv ops (new_key_rate c d p n)) as (O & F & D & C); cbn; auto; [split; auto|].
  fold k in O, F, D, C. repeat split; auto; try apply O. intros q. unfold kr_call. rewrite F. reflexivity.
Qed.
Print Assumptions C23_guards.

(** Its bump is the last one set, one basis point if none was. *)
Theorem C23_bump : forall c d p n ops, kr_bump (kr_run (new_key_rate c d p n) ops) = fold_left (fun b o => match o with SetBump b' => b' | _ => b end) ops (1 # 10000)%Q.
Proof.
  intros c d p n ops. assert (G : forall k, kr_bump (kr_run k ops) = fold_left (fun b o => match o with SetBump b' => b' | _ => b end) ops (kr_bump k)); [|apply (G (new_key_rate c d p n))].
  induction ops as [|o ops IH]; intros k; [reflexivity|]. unfold kr_run in *. cbn [fold_left]. rewrite IH. f_equal.
  destruct o as [[x|]|[x|]|b]; cbn [kr_apply set_prior_date set_next_date]; try reflexivity; match goal with |- context [if ?t then _ else _] => destruct t; reflexivity end.
Qed.
Print Assumptions C23_bump.

(** The setters accept exactly the dates on the right side of the key rate date and store them. *)
Theorem C23_setters : forall k p n,
  (match set_prior_date (Some p) k with Ok k' => p < kr_date k /\ kr_prior k' = Some p | Err e => e = ValueError /\ kr_date k <= p end) /\
  (match set_next_date (Some n) k with Ok k' => kr_date k < n /\ kr_next k' = Some n | Err e => e = ValueError /\ n <= kr_date k end) /\
  (exists k', set_prior_date None k = Ok k' /\ kr_prior k' = None) /\ (exists k', set_next_date None k = Ok k' /\ kr_next k' = None).
Proof.
  intros k p n. cbn [set_prior_date set_next_date].
  destruct (kr_date k <=? p) eqn:E1; destruct (n <=? kr_date k) eqn:E2; cbn; repeat split; try lia; eauto.
Qed.
Print Assumptions C23_setters.

Example C23_case : let k := kr_run (new_key_rate ACT360 738551 None None) [SetPrior (Some 738551); SetPrior (Some 738500); SetNext (Some 738600); SetNext (Some 738000); SetBump 1] in
  kr_prior k = Some 738500 /\ kr_next k = Some 738600 /\ match kr_call k 738551 with Ok v => Qeq_bool v 1 = true | _ => False end.
Proof. vm_compute. auto. Qed.

(** The constructor itself does not check: a key rate may be created with its prior date after its date. *)
Theorem C23_constructor_refuted : exists c d p, kr_prior (new_key_rate c d (Some p) None) = Some p /\ d < p.
Proof. exists ACT360, 738551, 738552. cbn. split; [reflexivity|lia]. Qed.
Print Assumptions C23_constructor_refuted.

(** ---- C20 ---- *)
Lemma reachable_inv k : reachable k -> ordered k /\ forall q, kr_call k q = adjustment (kr_dcc k) (kr_bump k) (kr_prior k, kr_date k, kr_next k) q.
Proof. intros (c & d & p & n & ops & P & N & ->). destruct (C23_guards c d p n ops P N) as (O & _ & _ & F). auto. Qed.

(** Zero outside the neighbours, flat beyond an end, for every convention. *)
Theorem C20_outside : forall k d, reachable k ->
  (forall p, kr_prior k = Some p -> d <= p -> kr_call k d = Ok 0%Q) /\
  (forall f, kr_next k = Some f -> f <= d -> kr_call k d = Ok 0%Q) /\
  (kr_prior k = None -> d <= kr_date k -> kr_call k d = Ok (kr_bump k)) /\
  (kr_next k = None -> kr_prior k <> None -> kr_date k <= d -> kr_call k d = Ok (kr_bump k)) /\
  (kr_next k = None -> kr_prior k = None -> kr_date k < d -> kr_call k d = Err TypeError).
Proof.
  intros k d R. destruct (reachable_inv k R) as [[P N] F]. rewrite F. split; [|split; [|split; [|split]]].
  - intros p E L. specialize (P p E). rewrite E. cbn [adjustment]. destruct (kr_next k) as [f|].
    + replace (d <=? p) with true by lia. rewrite orb_true_r. reflexivity.
    + replace (kr_date k <=? d) with false by lia. replace (d <=? p) with true by lia. reflexivity.
  - intros f E L. specialize (N f E). rewrite E. cbn [adjustment]. destruct (kr_prior k) as [p|].
    + replace (f <=? d) with true by lia. reflexivity.
    + replace (d <=? kr_date k) with false by lia. replace (f <=? d) with true by lia. reflexivity.
  - intros E L. rewrite E. cbn [adjustment]. replace (d <=? kr_date k) with true by lia. destruct (kr_next k); reflexivity.
  - intros E NE L. rewrite E. cbn [adjustment]. destruct (kr_prior k) as [p|]; [|congruence]. replace (kr_date k <=? d) with true by lia. reflexivity.
  - intros E NE L. rewrite E, NE. cbn [adjustment]. replace (d <=? kr_date k) with false by lia. reflexivity.
Qed.
Print Assumptions C20_outside.

Lemma clock_of c : c <> THIRTY360 -> exists phi k, has_clock c (countable c) phi k.
Proof.
  intros N. destruct c; try congruence.
  - exists inject_Z, (/ inject_Z 360)%Q. destruct (act_clock ACT360 _ eq_refl) as (A & B & C). split; auto; split; auto.
  - exists inject_Z, (/ inject_Z 365)%Q. destruct (act_clock ACT365 _ eq_refl) as (A & B & C). split; auto; split; auto.
  - exists inject_Z, (/ (1461 # 4))%Q. destruct (act_clock ACT365_25 _ eq_refl) as (A & B & C). split; auto; split; auto.
  - exists aa_clock, 1%Q. destruct actact_clock as (A & B & C). split; auto; split; auto.
    intros s e [Os Ys] L [Oe Ye]. apply B; auto.
Qed.

Lemma countable_between c : ok_between (countable c).
Proof.
  intros a b d [A1 A2] [B1 B2] [L1 L2]. split; [unfold date_ok in *; lia|]. intros E. specialize (A2 E). pose proof (year_mono a d L1). lia.
Qed.

(** Actual/* conventions: never fails with a neighbour present, at the key rate date the bump, elsewhere within
    [0, bump] and on the ramps the bump times the ratio of accruals. *)
Theorem C20_ramps : forall k d, reachable k -> kr_dcc k <> THIRTY360 -> countable (kr_dcc k) (kr_date k) ->
  (forall p, kr_prior k = Some p -> countable (kr_dcc k) p) -> (forall f, kr_next k = Some f -> countable (kr_dcc k) f) ->
  ~ (kr_prior k = None /\ kr_next k = None) ->
  exists v, kr_call k d = Ok v /\
    (d = kr_date k -> (v == kr_bump k)%Q) /\
    (0 <= kr_bump k -> 0 <= v /\ v <= kr_bump k)%Q /\
    (forall p q1 q2, kr_prior k = Some p -> p < d <= kr_date k ->
       compute_accrual_length (Day p) (Day d) (kr_dcc k) = Ok q1 -> compute_accrual_length (Day p) (Day (kr_date k)) (kr_dcc k) = Ok q2 ->
       (v == kr_bump k * (q1 / q2))%Q) /\
    (forall f q1 q2, kr_next k = Some f -> kr_date k < d < f ->
       compute_accrual_length (Day d) (Day f) (kr_dcc k) = Ok q1 -> compute_accrual_length (Day (kr_date k)) (Day f) (kr_dcc k) = Ok q2 ->
       (v == kr_bump k * (q1 / q2))%Q).
Proof.
  intros k d R C Ck Cp Cf NN. destruct (reachable_inv k R) as [[P N] F]. rewrite F.
  destruct (clock_of _ C) as (phi & kk & HC). pose proof (countable_between (kr_dcc k)) as OB.
  set (bump := kr_bump k) in *. set (c := kr_dcc k) in *. set (m := kr_date k) in *.
  assert (MM : forall s e, s < e -> (phi s < phi e)%Q) by (apply HC).
  assert (UPR : forall p q1 q2, countable c p -> p < d <= m -> compute_accrual_length (Day p) (Day d) c = Ok q1 -> compute_accrual_length (Day p) (Day m) c = Ok q2 ->
     (q1 / q2 == tent_up phi p m d)%Q).
  { intros p q1 q2 Op L E1 E2. destruct HC as (K & A & M).
    assert (countable c d) as Od by (apply (OB p m); auto; lia).
    destruct (A p d Op ltac:(lia) Od) as (x & X1 & X2). unfold acc in X1. rewrite E1 in X1. injection X1 as <-.
    destruct (A p m Op ltac:(lia) Ck) as (y & Y1 & Y2). unfold acc in Y1. rewrite E2 in Y1. injection Y1 as <-.
    unfold tent_up. replace (d <=? p) with false by lia. replace (d <=? m) with true by lia. rewrite X2, Y2.
    pose proof (M p m ltac:(lia)). field. split; intros Q; lra. }
  assert (DNR : forall f q1 q2, countable c f -> m < d < f -> compute_accrual_length (Day d) (Day f) c = Ok q1 -> compute_accrual_length (Day m) (Day f) c = Ok q2 ->
     (q1 / q2 == tent_down phi m f d)%Q).
  { intros f q1 q2 Of L E1 E2. destruct HC as (K & A & M).
    assert (countable c d) as Od by (apply (OB m f); auto; lia).
    destruct (A d f Od ltac:(lia) Of) as (x & X1 & X2). unfold acc in X1. rewrite E1 in X1. injection X1 as <-.
    destruct (A m f Ck ltac:(lia) Of) as (y & Y1 & Y2). unfold acc in Y1. rewrite E2 in Y1. injection Y1 as <-.
    unfold tent_down. replace (d <=? m) with false by lia. replace (f <=? d) with false by lia. rewrite X2, Y2.
    pose proof (M m f ltac:(lia)). field. split; intros Q; lra. }
  assert (SC : forall t, (0 <= t)%Q -> (t <= 1)%Q -> (0 <= bump)%Q -> (0 <= bump * t /\ bump * t <= bump)%Q).
  { intros t T1 T2 B. split; nra. }
  destruct (kr_prior k) as [p|] eqn:EP; destruct (kr_next k) as [f|] eqn:EN.
  - specialize (P p eq_refl). specialize (N f eq_refl). specialize (Cp p eq_refl). specialize (Cf f eq_refl).
    destruct (adj_mid c (countable c) phi kk bump p m f d HC OB Ck Cp Cf P N) as (v & E & V).
    exists v. split; auto. split; [|split; [|split]].
    + intros ->. rewrite V. unfold tent_up, tent_down. replace (m <=? p) with false by lia. replace (m <=? m) with true by lia.
      pose proof (MM p m P). field. intros Q. lra.
    + intros B. rewrite V. destruct (tent_up_bounds phi p m d MM P), (tent_down_bounds phi m f d MM N). apply SC; auto; nra.
    + intros ? q1 q2 [= <-] L E1 E2. rewrite V, (UPR p q1 q2) by auto. unfold tent_down. replace (d <=? m) with true by lia. ring.
    + intros ? q1 q2 [= <-] L E1 E2. rewrite V, (DNR f q1 q2) by auto. unfold tent_up. replace (d <=? p) with false by lia. replace (d <=? m) with false by lia. ring.
  - specialize (P p eq_refl). specialize (Cp p eq_refl).
    destruct (adj_last c (countable c) phi kk bump p m d HC OB Ck Cp P) as (v & E & V).
    exists v. split; auto. split; [|split; [|split]].
    + intros ->. rewrite V. unfold tent_up. replace (m <=? p) with false by lia. replace (m <=? m) with true by lia.
      pose proof (MM p m P). field. intros Q. lra.
    + intros B. rewrite V. destruct (tent_up_bounds phi p m d MM P). apply SC; auto.
    + intros ? q1 q2 [= <-] L E1 E2. rewrite V, (UPR p q1 q2) by auto. ring.
    + intros; discriminate.
  - specialize (N f eq_refl). specialize (Cf f eq_refl).
    destruct (adj_first c (countable c) phi kk bump m f d HC OB Ck Cf N) as (v & E & V).
    exists v. split; auto. split; [|split; [|split]].
    + intros ->. rewrite V. unfold tent_down. replace (m <=? m) with true by lia. ring.
    + intros B. rewrite V. destruct (tent_down_bounds phi m f d MM N). apply SC; auto.
    + intros; discriminate.
    + intros ? q1 q2 [= <-] L E1 E2. rewrite V, (DNR f q1 q2) by auto. ring.
  - exfalso. apply NN. auto.
Qed.
Print Assumptions C20_ramps.

(** A middle key rate at 2024-02-01 between 2024-01-01 and 2024-03-01, queried half-way up. *)
Definition ex_kr : kr := kr_run (new_key_rate ACT365 738917 None None) [SetPrior (Some 738887); SetNext (Some 738946); SetBump 1].
Example C20_case : reachable ex_kr /\ exists v, kr_call ex_kr 738902 = Ok v /\ (v == 1 # 2)%Q.
Proof.
  split.
  - exists ACT365, 738917, None, None, [SetPrior (Some 738887); SetNext (Some 738946); SetBump 1]. repeat split; discriminate.
  - eexists. split; vm_compute; reflexivity.
Qed.

(** Under 30/360 a key rate on 29 February after one on 28 February of another year exceeds its bump the day before,
    and one on a 31st after one on the 30th of the same month cannot be evaluated on its own date. *)
Theorem C20_thirty_bound_refuted : exists p d m k v, mk_date 2023 2 28 = Ok p /\ mk_date 2024 2 28 = Ok d /\ mk_date 2024 2 29 = Ok m /\
  k = new_key_rate THIRTY360 m (Some p) None /\ reachable k /\ kr_call k d = Ok v /\ ~ (v <= kr_bump k)%Q.
Proof.
  do 5 eexists. do 3 (split; [vm_compute; reflexivity|]). split; [reflexivity|]. split.
  - do 4 eexists. exists []. split; [|split; [|reflexivity]]; [intros x [= <-]; lia|discriminate].
  - split; [vm_compute; reflexivity|]. vm_compute. intros H. apply H. reflexivity.
Qed.
Print Assumptions C20_thirty_bound_refuted.
Theorem C20_thirty_zero_division_refuted : exists p m f k, mk_date 2024 1 30 = Ok p /\ mk_date 2024 1 31 = Ok m /\ mk_date 2024 3 1 = Ok f /\
  k = new_key_rate THIRTY360 m (Some p) (Some f) /\ reachable k /\ kr_call k m = Err ZeroDivisionError.
Proof.
  do 4 eexists. do 3 (split; [vm_compute; reflexivity|]). split; [reflexivity|]. split.
  - do 4 eexists. exists []. split; [|split; [|reflexivity]]; intros x [= <-]; lia.
  - vm_compute. reflexivity.
Qed.
Print Assumptions C20_thirty_zero_division_refuted.

(** ---- C22 ---- *)
Definition date_of (h : heap) (a : addr) : date := kr_date (h a).
Definition neighbours (h : heap) (c : collection) : Prop :=
  forall i a, nth_error c i = Some a ->
    kr_prior (h a) = match i with O => None | S j => option_map (date_of h) (nth_error c j) end /\
    kr_next (h a) = option_map (date_of h) (nth_error c (S i)) /\
    (forall d, kr_call (h a) d = adjustment (kr_dcc (h a)) (kr_bump (h a)) (kr_prior (h a), kr_date (h a), kr_next (h a)) d).

Lemma linked_neighbours h h' c : linked h h' None c -> neighbours h' c.
Proof.
  intros L i a N. pose proof (linked_cores _ _ _ _ L) as C. destruct L as [_ L2].
  destruct (nth_error_split _ _ N) as (l1 & l2 & E & LE). pose proof (L2 l1 a l2 E) as Ha.
  assert (OD : forall o, odate h o = option_map (date_of h') o).
  { intros [b|]; cbn; auto. unfold date_of. f_equal. apply C. }
  rewrite !OD in Ha. split; [|split].
  - rewrite Ha. cbn [relinked kr_prior]. unfold prev_of. subst c i. destruct (rev l1) as [|b r] eqn:R.
    + apply (f_equal (@List.length _)) in R. rewrite rev_length in R. cbn in R. rewrite R. reflexivity.
    + assert (l1 = rev r ++ [b]) as -> by (rewrite <- (rev_involutive l1), R; reflexivity).
      rewrite app_length. cbn [List.length]. rewrite Nat.add_1_r. f_equal.
      rewrite <- app_assoc. rewrite nth_error_app2 by lia. rewrite Nat.sub_diag. reflexivity.
  - rewrite Ha. cbn [relinked kr_next]. f_equal. subst c i. rewrite nth_error_app2 by lia.
    replace (S (List.length l1) - List.length l1)%nat with 1%nat by lia. destruct l2; reflexivity.
  - intros d. rewrite Ha. reflexivity.
Qed.

(** Construction from any non-empty list of key rates with distinct dates: sorted by date, a permutation of the given,
    linked to neighbours; other key rates, and dates, conventions and bumps of all, are untouched. *)
Theorem C22_construction : forall h l, l <> [] -> NoDup (List.map (date_of h) l) ->
  exists h' c, new_collection l h = (h', Ok c) /\ Permutation c l /\ StronglySorted Z.lt (List.map (date_of h') c) /\ neighbours h' c /\
    (forall a, ~ In a l -> h' a = h a) /\
    (forall a, kr_date (h' a) = kr_date (h a) /\ kr_dcc (h' a) = kr_dcc (h a) /\ kr_bump (h' a) = kr_bump (h a)).
Proof.
  intros h l NE ND. destruct (new_collection_ok l h NE ND) as (h' & c & E & P & I & L).
  pose proof (linked_cores _ _ _ _ L) as C.
  exists h', c. split; auto. split; auto. split; [|split; [|split]].
  - unfold increasing in I. rewrite (same_cores_dates h h' c C) in I. exact I.
  - eapply linked_neighbours; eauto.
  - intros a NI. apply L. intros Q. apply NI. eapply Permutation_in; eauto.
  - intros a. destruct (C a) as (A & B & D). auto.
Qed.
Print Assumptions C22_construction.

(** Input order does not matter. *)
Theorem C22_order_irrelevant : forall h l l' h1 c1, Permutation l l' -> new_collection l h = (h1, Ok c1) ->
  exists h2, new_collection l' h = (h2, Ok c1) /\ forall a, h2 a = h1 a.
Proof.
  intros h l l' h1 c1 P E.
  assert (NE : l <> []) by (intros ->; cbn in E; discriminate).
  assert (ND : NoDup (dates h l)).
  { destruct (ListDec.NoDup_dec Z.eq_dec (dates h l)) as [|N]; auto. destruct (new_collection_err l h (or_intror N)) as (x & E'). rewrite E in E'. discriminate. }
  destruct (new_collection_ok l h NE ND) as (x & c & E1 & P1 & I1 & L1). rewrite E in E1. injection E1 as <- <-.
  assert (NE' : l' <> []) by (intros ->; symmetry in P; apply Permutation_nil in P; auto).
  assert (ND' : NoDup (dates h l')) by (eapply Permutation_NoDup; [|exact ND]; apply Permutation_map; auto).
  destruct (new_collection_ok l' h NE' ND') as (h2 & c2 & E2 & P2 & I2 & L2).
  assert (c1 = c2).
  { apply (increasing_unique h); auto. rewrite P1, P2. auto. }
  subst c2. exists h2. split; auto. intros a. destruct (in_dec Nat.eq_dec a c1) as [I|I].
  - apply in_split in I. destruct I as (u & v & EQ). destruct L1 as [_ L1], L2 as [_ L2]. rewrite (L1 _ _ _ EQ), (L2 _ _ _ EQ). reflexivity.
  - destruct L1 as [L1 _], L2 as [L2 _]. rewrite L1, L2; auto.
Qed.
Print Assumptions C22_order_irrelevant.

Theorem C22_rejected : forall h l, l = [] \/ ~ NoDup (List.map (date_of h) l) -> exists h', new_collection l h = (h', Err ValueError).
Proof. intros h l. apply new_collection_err. Qed.
Print Assumptions C22_rejected.

Definition ex_heap : heap := fun a => new_key_rate ACT365 (738551 + 31 * Z.of_nat a) None None.
Example C22_case : let '(h', r) := new_collection [2%nat; 0%nat; 1%nat] ex_heap in r = Ok [0%nat; 1%nat; 2%nat] /\
  kr_prior (h' 1%nat) = Some 738551 /\ kr_next (h' 1%nat) = Some (738551 + 62).
Proof. vm_compute. auto. Qed.

(** ---- C21 ---- *)
Theorem C21_parallel_shift : forall h l h' col c bump d, new_collection l h = (h', Ok col) -> (2 <= List.length l)%nat ->
  c <> THIRTY360 -> (forall a, In a l -> kr_dcc (h a) = c /\ countable c (kr_date (h a)) /\ (kr_bump (h a) == bump)%Q) ->
  exists v, coll_call h' col d = Ok v /\ (v == bump)%Q.
Proof.
  intros h l h' col c bump d E L NC G.
  assert (NE : l <> []) by (intros ->; cbn in L; lia).
  assert (ND : NoDup (dates h l)).
  { destruct (ListDec.NoDup_dec Z.eq_dec (dates h l)) as [|N]; auto. destruct (new_collection_err l h (or_intror N)) as (x & E'). rewrite E in E'. discriminate. }
  destruct (new_collection_ok l h NE ND) as (x & c0 & E1 & P1 & I1 & L1). rewrite E in E1. injection E1 as <- <-.
  pose proof (linked_cores _ _ _ _ L1) as C. pose proof (linked_chained _ _ _ _ L1) as CH. cbn in CH.
  destruct (clock_of c NC) as (phi & kk & HC).
  apply Permutation_length in P1 as PL. destruct col as [|a [|b r]]; cbn in PL; try lia.
  apply (sum_parallel (countable c) phi (countable_between c) h' bump d a b r CH).
  - unfold increasing. rewrite <- (same_cores_dates h h'); auto.
  - apply Forall_forall. intros y I. apply (Permutation_in y P1) in I. destruct (G y I) as (G1 & G2 & G3).
    destruct (C y) as (C1 & C2 & C3). unfold good. rewrite <- C1, <- C2, <- C3, G1. repeat split; try apply G2; auto. eauto.
Qed.
Print Assumptions C21_parallel_shift.

(** Different Actual/N conventions may be mixed. *)
Theorem C21_parallel_shift_mixed : forall h l h' col bump d, new_collection l h = (h', Ok col) -> (2 <= List.length l)%nat ->
  (forall a, In a l -> In (kr_dcc (h a)) [ACT360; ACT365; ACT365_25] /\ (kr_bump (h a) == bump)%Q) ->
  exists v, coll_call h' col d = Ok v /\ (v == bump)%Q.
Proof.
  intros h l h' col bump d E L G.
  assert (NE : l <> []) by (intros ->; cbn in L; lia).
  assert (ND : NoDup (dates h l)).
  { destruct (ListDec.NoDup_dec Z.eq_dec (dates h l)) as [|N]; auto. destruct (new_collection_err l h (or_intror N)) as (x & E'). rewrite E in E'. discriminate. }
  destruct (new_collection_ok l h NE ND) as (x & c0 & E1 & P1 & I1 & L1). rewrite E in E1. injection E1 as <- <-.
  pose proof (linked_cores _ _ _ _ L1) as C. pose proof (linked_chained _ _ _ _ L1) as CH. cbn in CH.
  apply Permutation_length in P1 as PL. destruct col as [|a [|b r]]; cbn in PL; try lia.
  apply (sum_parallel (fun _ => True) inject_Z (proj1 clocks_ok) h' bump d a b r CH).
  - unfold increasing. rewrite <- (same_cores_dates h h'); auto.
  - apply Forall_forall. intros y I. apply (Permutation_in y P1) in I. destruct (G y I) as (G1 & G3).
    destruct (C y) as (C1 & C2 & C3). unfold good. rewrite <- C1, <- C3. repeat split; auto.
    destruct G1 as [<-|[<-|[<-|[]]]]; [exists (/ inject_Z 360)%Q|exists (/ inject_Z 365)%Q|exists (/ (1461 # 4))%Q];
    [apply (act_clock ACT360)|apply (act_clock ACT365)|apply (act_clock ACT365_25)]; reflexivity.
Qed.
Print Assumptions C21_parallel_shift_mixed.

(** Changing the collection's bump changes the shift accordingly. *)
Lemma set_bumps_spec b l : forall h, exists h', set_bumps b l h = (h', Ok tt) /\
  forall a, kr_dcc (h' a) = kr_dcc (h a) /\ kr_date (h' a) = kr_date (h a) /\ (In a l -> kr_bump (h' a) = b) /\ (~ In a l -> h' a = h a).
Proof.
  induction l as [|x l IH]; intros h.
  - exists h. split; [reflexivity|]. intros a. repeat split; auto. intros [].
  - destruct (IH (upd h x (set_bump_val b (h x)))) as (h' & E & S). exists h'. split; [exact E|].
    intros a. destruct (S a) as (S1 & S2 & S3 & S4). unfold upd in S1, S2, S4. destruct (Nat.eqb a x) eqn:EQ.
    + apply Nat.eqb_eq in EQ. subst a. repeat split; auto.
      * intros _. destruct (in_dec Nat.eq_dec x l); auto. rewrite S4; auto.
      * intros N. exfalso. apply N. left; auto.
    + apply Nat.eqb_neq in EQ. repeat split; auto.
      * intros [->|I]; [congruence|auto].
      * intros N. apply S4. intros I. apply N. right; auto.
Qed.

Theorem C21_set_bump : forall h col c b d, (2 <= List.length col)%nat -> StronglySorted Z.lt (List.map (date_of h) col) ->
  c <> THIRTY360 -> (forall a, In a col -> kr_dcc (h a) = c /\ countable c (kr_date (h a))) ->
  exists h', coll_set_bump_val b col h = (h', Ok tt) /\ exists v, coll_call h' col d = Ok v /\ (v == b)%Q.
Proof.
  intros h col c b d L S NC G. destruct (set_bumps_spec b col h) as (h1 & E1 & S1).
  assert (NE : col <> []) by (intros ->; cbn in L; lia).
  assert (I1 : increasing h1 col).
  { unfold increasing, dates. rewrite (map_ext _ (date_of h)); auto. intros a. apply S1. }
  destruct (set_dates_ok col h1 NE I1) as (h2 & E2 & L2). exists h2. split.
  { unfold coll_set_bump_val. rewrite (andthen_ok _ _ _ _ _ E1). exact E2. }
  pose proof (linked_cores _ _ _ _ L2) as C. pose proof (linked_chained _ _ _ _ L2) as CH. cbn in CH.
  destruct (clock_of c NC) as (phi & kk & HC). destruct col as [|x [|y r]]; cbn in L; try lia.
  apply (sum_parallel (countable c) phi (countable_between c) h2 b d x y r CH).
  - unfold increasing. rewrite <- (same_cores_dates h1 h2); auto.
  - apply Forall_forall. intros a I. destruct (G a I) as (G1 & G2). destruct (S1 a) as (A1 & A2 & A3 & _). destruct (C a) as (C1 & C2 & C3).
    unfold good. rewrite <- C1, <- C2, <- C3, A1, A2, (A3 I), G1. repeat split; try apply G2; try reflexivity. eauto.
Qed.
Print Assumptions C21_set_bump.

Example C21_case : let '(h', r) := new_collection [2%nat; 0%nat; 1%nat] ex_heap in r = Ok [0%nat; 1%nat; 2%nat] /\
  match coll_call h' [0%nat; 1%nat; 2%nat] 738570 with Ok v => Qeq_bool v (1 # 10000) = true | _ => False end.
Proof. vm_compute. auto. Qed.

(** 30/360: key rates at 2023-01-15 and 2023-03-15, queried on 2023-02-28. *)
Theorem C21_thirty_refuted : exists h d, (forall a, kr_bump (h a) = ONE_BASIS_POINT /\ kr_dcc (h a) = THIRTY360) /\
  let '(h', r) := new_collection [0%nat; 1%nat] h in
  r = Ok [0%nat; 1%nat] /\ exists v, coll_call h' [0%nat; 1%nat] d = Ok v /\ ~ (v == ONE_BASIS_POINT)%Q.
Proof.
  exists (fun a => new_key_rate THIRTY360 (match a with O => 738535 | _ => 738594 end) None None).
  exists 738579. split; [intros a; split; reflexivity|]. vm_compute. split; [reflexivity|]. eexists. split; [reflexivity|]. discriminate.
Qed.
Print Assumptions C21_thirty_refuted.

(** ---- C24 ---- *)
Definition any_order (order : list addr -> list addr) : Prop := forall l, Permutation (order l) l.

Lemma kr_eqb_iff j k : kr_eqb j k = true <-> kr_dcc j = kr_dcc k /\ kr_date j = kr_date k.
Proof.
  unfold kr_eqb. rewrite andb_true_iff, Z.eqb_eq. split; intros [A B]; split; auto.
  - destruct (kr_dcc j), (kr_dcc k); cbn in A; congruence.
  - rewrite A. destruct (kr_dcc k); reflexivity.
Qed.

Lemma dedup_spec h l : forall seen,
  (forall a, In a (dedup h seen l) -> In a l /\ forall b, In b seen -> kr_eqb (h b) (h a) = false) /\
  (forall a, In a l -> (exists b, In b seen /\ kr_eqb (h b) (h a) = true) \/ exists b, In b (dedup h seen l) /\ kr_eqb (h b) (h a) = true) /\
  NoDup (List.map (fun a => (kr_dcc (h a), kr_date (h a))) (dedup h seen l)).
Proof.
  induction l as [|x l IH]; intros seen; cbn [dedup].
  - repeat split; try constructor; try contradiction.
  - destruct (existsb (fun b => kr_eqb (h b) (h x)) seen) eqn:E.
    + destruct (IH seen) as (A & B & C). repeat split; auto.
      * apply A in H. right. apply H.
      * apply A in H. apply H.
      * intros a [<-|I]; [|apply B; auto]. left. apply existsb_exists in E. exact E.
    + destruct (IH (x :: seen)) as (A & B & C).
      assert (NS : forall b, In b seen -> kr_eqb (h b) (h x) = false).
      { intros b I. destruct (kr_eqb (h b) (h x)) eqn:Q; auto. assert (existsb (fun b => kr_eqb (h b) (h x)) seen = true) by (apply existsb_exists; eauto). congruence. }
      repeat split.
      * destruct H as [<-|H]; [left; auto|right; apply A; auto].
      * destruct H as [<-|H]; [apply NS|]. intros b I. apply (proj2 (A a H)). right; auto.
      * intros a [<-|I]. { right. exists x. split; [left; auto|]. apply kr_eqb_iff; auto. }
        destruct (B a I) as [(b & [<-|I'] & Q)|(b & I' & Q)].
        -- right. exists x. split; [left; auto|auto].
        -- left. eauto.
        -- right. exists b. split; [right; auto|auto].
      * cbn. constructor; auto. intros I. apply in_map_iff in I. destruct I as (b & Q & I). apply A in I. destruct I as [_ I].
        specialize (I x (or_introl eq_refl)). injection Q as Q1 Q2. assert (kr_eqb (h x) (h b) = true) by (apply kr_eqb_iff; auto). congruence.
Qed.

(** Union of two collections whose key rates use one convention: one key rate per date of either, sorted, linked. *)
Theorem C24_union : forall order h a b c0, any_order order -> a ++ b <> [] -> (forall x, In x (a ++ b) -> kr_dcc (h x) = c0) ->
  exists h' c, add_collections order a b h = (h', Ok c) /\ StronglySorted Z.lt (List.map (date_of h') c) /\ neighbours h' c /\
    (forall x, In x c -> In x a \/ In x b) /\ (forall x, In x a \/ In x b -> exists! y, In y c /\ date_of h' y = date_of h x).
Proof.
  intros order h a b c0 OR NE DC. unfold add_collections. set (u := set_union h a b).
  destruct (dedup_spec h (a ++ b) []) as (U1 & U2 & U3). fold (set_union h a b) in U1, U2, U3. fold u in U1, U2, U3.
  assert (ND : NoDup (List.map (date_of h) u)).
  { clear NE. revert U1 U3. clear -DC. induction u as [|x u IH]; intros U1 U3; cbn; [constructor|]. cbn in U3. inversion U3 as [|? ? N U3']; subst. constructor.
    - intros I. apply N. apply in_map_iff in I. destruct I as (y & Q & I). apply in_map_iff. exists y. split; auto. unfold date_of in Q. rewrite Q. f_equal.
      rewrite !DC; auto; apply U1; [left|right]; auto.
    - apply IH; auto. intros y I. apply U1. right; auto. }
  assert (NU : u <> []).
  { destruct (a ++ b) as [|x l] eqn:Q; [congruence|]. destruct (U2 x (or_introl eq_refl)) as [(y & [] & _)|(y & I & _)]. intros ->. destruct I. }
  assert (P := OR u).
  destruct (C22_construction h (order u)) as (h' & c & E & PC & S & NB & FR & CO).
  { intros Q. rewrite Q in P. apply Permutation_nil in P. auto. }
  { eapply Permutation_NoDup; [|exact ND]. apply Permutation_map. symmetry. auto. }
  exists h', c. split; auto. split; auto. split; auto.
  assert (PU : Permutation c u) by (rewrite PC; auto).
  split.
  - intros x I. apply (Permutation_in x PU) in I. apply U1 in I. destruct I as [I _]. apply in_app_iff in I. auto.
  - intros x I. destruct (U2 x) as [(y & [] & _)|(y & Iy & Q)]; [apply in_app_iff; auto|]. apply kr_eqb_iff in Q.
    exists y. split.
    + split; [apply (Permutation_in y (Permutation_sym PU)); auto|]. unfold date_of. rewrite (proj1 (CO y)). apply Q.
    + intros z [Iz Dz]. unfold date_of in Dz. rewrite (proj1 (CO z)) in Dz.
      apply (Permutation_in z PU) in Iz. destruct Q as [_ Q]. assert (EQ : date_of h y = date_of h z) by (unfold date_of; congruence).
      clear -ND Iy Iz EQ. induction u as [|w u IH]; [destruct Iy|]. cbn in ND. inversion ND as [|? ? N ND']; subst.
      destruct Iy as [->|Iy], Iz as [->|Iz]; auto; exfalso; apply N; [rewrite EQ|rewrite <- EQ]; apply in_map; auto.
Qed.
Print Assumptions C24_union.

(** Equal dates under different conventions make the union fail. *)
Theorem C24_union_conflict : forall order h a b x y, any_order order -> In x (a ++ b) -> In y (a ++ b) ->
  kr_date (h x) = kr_date (h y) -> kr_dcc (h x) <> kr_dcc (h y) ->
  exists h', add_collections order a b h = (h', Err ValueError).
Proof.
  intros order h a b x y OR Ix Iy D N. apply C22_rejected. right.
  destruct (dedup_spec h (a ++ b) []) as (_ & U2 & U3). fold (set_union h a b) in U2, U3.
  destruct (U2 x Ix) as [(? & [] & _)|(x' & Ix' & Qx)]. destruct (U2 y Iy) as [(? & [] & _)|(y' & Iy' & Qy)].
  apply kr_eqb_iff in Qx, Qy. assert (NE : x' <> y') by (intros ->; destruct Qx, Qy; congruence).
  intros ND. assert (ND' : NoDup (List.map (date_of h) (set_union h a b))).
  { eapply Permutation_NoDup; [|exact ND]. apply Permutation_map. apply OR. }
  assert (EQ : date_of h x' = date_of h y') by (unfold date_of; destruct Qx, Qy; congruence).
  clear -ND' Ix' Iy' NE EQ. induction (set_union h a b) as [|w u IH]; [destruct Ix'|]. cbn in ND'. inversion ND' as [|? ? N ND2]; subst.
  destruct Ix' as [->|Ix'], Iy' as [->|Iy']; auto; try congruence; apply N; [rewrite EQ|rewrite <- EQ]; apply in_map; auto.
Qed.
Print Assumptions C24_union_conflict.

(** Item assignment: never at the first position, nor at the last beyond the previous date (TypeError). *)
Theorem C24_setitem : forall h c i new a n, py_index c i = Ok n -> nth_error c n = Some a -> neighbours h c ->
  let r := snd (setitem c i new h) in
  (n = O -> r = Err TypeError) /\
  (n <> O -> S n = List.length c -> r = Err TypeError \/ r = Err ValueError) /\
  (forall p f, kr_prior (h a) = Some p -> kr_next (h a) = Some f -> ~ (p < date_of h new < f) -> r = Err ValueError) /\
  (forall c', r = Ok c' -> exists p f, kr_prior (h a) = Some p /\ kr_next (h a) = Some f /\ p < date_of h new < f /\ c' = replace_nth n new c).
Proof.
  intros h c i new a n PI NA NB. unfold setitem. rewrite PI, NA. destruct (NB n a NA) as (P & N & _). cbv zeta. unfold date_of.
  repeat split.
  - intros ->. rewrite P. reflexivity.
  - intros NZ LS. destruct (kr_prior (h a)) as [p|]; [|left; reflexivity]. destruct (p <? kr_date (h new)); [|right; reflexivity].
    rewrite N. rewrite (proj2 (nth_error_None c (S n))) by lia. left. reflexivity.
  - intros p f -> -> NI. destruct (p <? kr_date (h new)) eqn:E1; [|reflexivity]. destruct (kr_date (h new) <? f) eqn:E2; [lia|reflexivity].
  - intros c'. destruct (kr_prior (h a)) as [p|]; [|discriminate]. destruct (p <? kr_date (h new)) eqn:E1; [|discriminate].
    destruct (kr_next (h a)) as [f|]; [|discriminate]. destruct (kr_date (h new) <? f) eqn:E2; [|discriminate].
    unfold andthen. destruct (set_dates_in_collection (replace_nth n new c) h) as [h1 [u|e]]; cbn; [|discriminate].
    intros [= <-]. exists p, f. repeat split; auto; lia.
Qed.
Print Assumptions C24_setitem.

(** A successful middle assignment keeps the collection sorted and linked. *)
Lemma replace_nth_In {A} n (x y : A) l : In y (replace_nth n x l) -> y = x \/ In y l.
Proof. revert n. induction l as [|z l IH]; intros [|n]; cbn; auto; intros [<-|I]; auto. destruct (IH n I); auto. Qed.

Theorem C24_setitem_relinks : forall h c i new h' c', setitem c i new h = (h', Ok c') ->
  StronglySorted Z.lt (List.map (date_of h') c') /\ neighbours h' c'.
Proof.
  intros h c i new h' c'. unfold setitem. destruct (py_index c i) as [n|]; [|discriminate].
  destruct (nth_error c n) as [a|]; [|discriminate]. destruct (kr_prior (h a)) as [p|]; [|discriminate].
  destruct (p <? kr_date (h new)); [|discriminate]. destruct (kr_next (h a)) as [f|]; [|discriminate]. destruct (kr_date (h new) <? f); [|discriminate].
  set (c2 := replace_nth n new c). unfold andthen. destruct (set_dates_in_collection c2 h) as [h1 r] eqn:E. destruct r as [u|e]; [|discriminate].
  intros [= <- <-].
  destruct (linkable_dec c2 h) as [[NE I]|N].
  - destruct (set_dates_ok c2 h NE I) as (h2 & E2 & L). rewrite E in E2. injection E2 as <-. split; [|eapply linked_neighbours; eauto].
    pose proof (linked_cores _ _ _ _ L) as C. unfold increasing in I. rewrite (same_cores_dates h h1 c2 C) in I. exact I.
  - destruct (set_dates_err c2 h N) as (h2 & E2). rewrite E in E2. discriminate.
Qed.
Print Assumptions C24_setitem_relinks.

(** insert and [+ key_rate] always raise TypeError and change nothing. *)
Theorem C24_insert_rejected : forall c a h, insert c a h = (h, Err TypeError) /\ add_key_rate c a h = (h, Err TypeError).
Proof. intros; split; reflexivity. Qed.
Print Assumptions C24_insert_rejected.

(** Deletion keeps the others, sorted and linked; deleting the only member raises ValueError and leaves it empty. *)
Theorem C24_delete : forall h c i n, py_index c i = Ok n -> StronglySorted Z.lt (List.map (date_of h) c) ->
  exists h' r, delitem c i h = (h', (remove_nth n c, r)) /\
    ((2 <= List.length c)%nat -> r = Ok tt /\ StronglySorted Z.lt (List.map (date_of h') (remove_nth n c)) /\ neighbours h' (remove_nth n c)) /\
    (List.length c = 1%nat -> r = Err ValueError /\ remove_nth n c = []).
Proof.
  intros h c i n PI S. unfold delitem. rewrite PI.
  assert (NL : (n < List.length c)%nat).
  { unfold py_index in PI. destruct ((0 <=? _) && _) eqn:E in PI; [|discriminate]. injection PI as <-. lia. }
  assert (LR : List.length (remove_nth n c) = (List.length c - 1)%nat).
  { clear -NL. revert n NL. induction c as [|x c IH]; intros [|n] NL; cbn in *; try lia. rewrite IH; lia. }
  assert (I : increasing h (remove_nth n c)).
  { unfold increasing, dates, date_of in *. clear -S. revert n. induction c as [|x c IH]; intros [|n]; cbn in *; auto; try constructor; inversion S as [|? ? S' F]; subst; auto.
    rewrite Forall_forall in *. intros y Iy. apply F. clear -Iy. revert n Iy. induction c as [|z c IH]; intros [|n]; cbn; auto. intros [<-|I]; auto. right. apply (IH n I). }
  unfold create_combined_adjustment_function. destruct (remove_nth n c) as [|x r] eqn:ER.
  - exists h, (Err ValueError). split; [reflexivity|]. split; [intros; cbn in LR; lia|auto].
  - destruct (set_dates_ok (x :: r) h) as (h' & E & L); [congruence|auto|]. exists h', (Ok tt). rewrite E. split; [reflexivity|]. split.
    + intros _. split; auto. split; [|eapply linked_neighbours; eauto]. pose proof (linked_cores _ _ _ _ L) as C. unfold increasing in I. rewrite (same_cores_dates h h' _ C) in I. exact I.
    + intros Q. cbn in LR. lia.
Qed.
Print Assumptions C24_delete.

(** [+=] does not sort: it works exactly when the set happens to be enumerated in date order; otherwise ValueError is
    raised with the members already replaced. *)
Theorem C24_iadd : forall order h c other, any_order order -> exists h' r,
  iadd order c other h = (h', (order (set_union h c other), r)) /\
  ((StronglySorted Z.lt (List.map (date_of h) (order (set_union h c other))) /\ order (set_union h c other) <> [] /\ r = Ok tt) \/ r = Err ValueError).
Proof.
  intros order h c other OR. unfold iadd, create_combined_adjustment_function. set (u := order (set_union h c other)).
  destruct (linkable_dec u h) as [[NE I]|N].
  - destruct (set_dates_ok u h NE I) as (h' & E & L). rewrite E. exists h', (Ok tt). split; auto.
  - destruct (set_dates_err u h N) as (h' & E). rewrite E. exists h', (Err ValueError). auto.
Qed.
Print Assumptions C24_iadd.

Theorem C24_iadd_refuted : exists order h c other, any_order order /\ StronglySorted Z.lt (List.map (date_of h) c) /\
  NoDup (List.map (date_of h) (c ++ other)) /\ snd (snd (iadd order c other h)) = Err ValueError /\ fst (snd (iadd order c other h)) <> c.
Proof.
  exists (fun l => l), ex_heap, [1%nat; 2%nat], [0%nat]. split; [intros l; reflexivity|].
  split; [vm_compute; repeat constructor|]. split; [vm_compute; repeat constructor; cbn; intuition lia|]. split; [vm_compute; reflexivity|]. vm_compute. discriminate.
Qed.
Print Assumptions C24_iadd_refuted.

Example C24_case : any_order (fun l => rev l) /\ let '(h1, r1) := new_collection [0%nat; 2%nat] ex_heap in r1 = Ok [0%nat; 2%nat] /\
  snd (add_collections (fun l => rev l) [0%nat; 2%nat] [1%nat; 2%nat] h1) = Ok [0%nat; 1%nat; 2%nat].
Proof. split; [intros l; symmetry; apply Permutation_rev|]. vm_compute. auto. Qed.

(** ---- C25 ---- *)
(** Slicing off the first key rate of a collection (coll[1:]) re-links the shared objects: afterwards the original
    collection's adjustment before its first date is twice the bump. *)
Theorem C25_slice_breaks_original : forall h a b r c bump d,
  let col := a :: b :: r in
  StronglySorted Z.lt (List.map (date_of h) col) -> neighbours h col ->
  c <> THIRTY360 -> (forall x, In x col -> kr_dcc (h x) = c /\ countable c (kr_date (h x)) /\ (kr_bump (h x) == bump)%Q) ->
  d <= date_of h a ->
  exists h' v v', getslice col 1 (List.length col) h = (h', Ok (b :: r)) /\
    coll_call h col d = Ok v /\ (v == bump)%Q /\ coll_call h' col d = Ok v' /\ (v' == 2 * bump)%Q.
Proof.
  intros h a b r c bump d col SS NB NC G Ld.
  assert (SL : slice 1 (List.length col) col = b :: r).
  { unfold slice, col. cbn [skipn List.length]. replace (S (S (List.length r)) - 1)%nat with (List.length (b :: r)) by (cbn; lia). apply firstn_all. }
  unfold getslice. rewrite SL.
  cbn in SS. inversion SS as [|? ? S' FA]; subst. rewrite Forall_forall in FA.
  assert (ND : NoDup (dates h (b :: r))) by (apply sorted_lt_NoDup; exact S').
  destruct (new_collection_ok (b :: r) h ltac:(congruence) ND) as (h' & c1 & E & P & I & L).
  assert (c1 = b :: r) by (apply (increasing_unique h); auto). subst c1.
  assert (NA : ~ In a (b :: r)).
  { intros Q. specialize (FA _ (in_map (date_of h) (b :: r) a Q)). lia. }
  pose proof (linked_cores _ _ _ _ L) as C.
  assert (Ha : h' a = h a) by (apply L; auto).
  (* value of each member at d in h *)
  assert (CA : kr_call (h a) d = Ok (kr_bump (h a))).
  { destruct (NB O a eq_refl) as (P1 & _ & F). rewrite F, P1. cbn [adjustment]. unfold date_of in Ld. replace (d <=? kr_date (h a)) with true by lia. destruct (kr_next (h a)); reflexivity. }
  assert (Z0 : forall x, In x (b :: r) -> kr_call (h x) d = Ok 0%Q).
  { intros x Ix. destruct (In_nth_error (b :: r) x Ix) as [j Hj]. destruct (NB (Datatypes.S j) x Hj) as (P1 & _ & F).
    assert (exists q, kr_prior (h x) = Some q /\ date_of h a <= q).
    { rewrite P1. destruct (nth_error col j) as [y|] eqn:Y; [|apply nth_error_None in Y; assert (Datatypes.S j < List.length col)%nat by (apply nth_error_Some; unfold col; cbn; congruence); lia].
      exists (date_of h y). split; auto. destruct (nth_error_In _ _ Y) as [<-|Iy]; [lia|]. specialize (FA _ (in_map (date_of h) (b :: r) y Iy)). lia. }
    destruct H as (q & Q & LQ). rewrite F, Q. cbn [adjustment].
    assert (q < kr_date (h x)).
    { destruct j as [|j]; cbn in P1; [|].
      - rewrite Q in P1. injection P1 as ->. assert (x = b) by (cbn in Hj; congruence). subst x. apply FA. left. reflexivity.
      - cbn in Hj, P1. clear FA. rewrite Q in P1. destruct (nth_error (b :: r) j) as [y|] eqn:Y; [|discriminate]. cbn in P1. injection P1 as ->.
        change (StronglySorted Z.lt (List.map (date_of h) (b :: r))) in S'. clear -S' Hj Y. revert S' Hj Y. change (nth_error r j = Some x) with (nth_error (b :: r) (Datatypes.S j) = Some x).
        generalize (b :: r). intros l. revert j. induction l as [|z l IH]; intros j S Hj Y; [destruct j; discriminate|].
        cbn in S. inversion S as [|? ? S' F]; subst. destruct j as [|j].
        + cbn in Y. injection Y as ->. destruct l as [|w l]; [discriminate|]. cbn in Hj. injection Hj as ->. rewrite Forall_forall in F. apply F. left; reflexivity.
        + apply (IH j); auto. }
    destruct (kr_next (h x)) as [f|].
    - replace (d <=? q) with true by lia. rewrite orb_true_r. reflexivity.
    - replace (kr_date (h x) <=? d) with false by (unfold date_of in *; lia). replace (d <=? q) with true by lia. reflexivity. }
  assert (MZ : forall l (hh : heap), (forall x, In x l -> kr_call (hh x) d = Ok 0%Q) -> exists vs, mapM (fun a => kr_call (hh a) d) l = Ok vs /\ (fold_left Qplus vs 0 == 0)%Q).
  { intros l hh. induction l as [|x l IH]; intros H; [exists []; split; reflexivity|]. destruct IH as (vs & E1 & V1); [intros; apply H; right; auto|].
    exists (0%Q :: vs). cbn [mapM]. rewrite (H x) by (left; auto). cbn [bind]. rewrite E1. split; [reflexivity|]. cbn [fold_left]. rewrite fold_Qplus, V1. reflexivity. }
  destruct (G a (or_introl eq_refl)) as (_ & _ & Ba). destruct (G b (or_intror (or_introl eq_refl))) as (_ & _ & Bb).
  destruct (MZ (b :: r) h Z0) as (vs & E1 & V1).
  (* in h' *)
  pose proof (linked_neighbours _ _ _ L) as NB'.
  assert (Ldb : d <= kr_date (h b)) by (specialize (FA (date_of h b) (or_introl eq_refl)); unfold date_of in *; lia).
  assert (CB : kr_call (h' b) d = Ok (kr_bump (h b))).
  { destruct (NB' O b eq_refl) as (P1 & _ & F). rewrite F, P1. cbn [adjustment]. destruct (C b) as (C1 & C2 & C3). rewrite <- C2, <- C3.
    replace (d <=? kr_date (h b)) with true by lia. destruct (kr_next (h' b)); reflexivity. }
  assert (Z1 : forall x, In x r -> kr_call (h' x) d = Ok 0%Q).
  { intros x Ix. destruct L as [_ L2]. apply in_split in Ix. destruct Ix as (l1 & l2 & Q). specialize (L2 (b :: l1) x l2). rewrite Q in L2. specialize (L2 eq_refl).
    rewrite L2. unfold kr_call, relinked. cbn [kr_dcc kr_bump kr_fun].
    rewrite prev_of_cons. 
    assert (exists y, prev_of (Some b) l1 = Some y /\ In y (b :: l1)).
    { unfold prev_of. destruct (rev l1) as [|y s] eqn:R; [exists b; split; [reflexivity|left; auto]|]. exists y. split; auto. right. apply in_rev. rewrite R. left; auto. }
    destruct H as (y & Ey & Iy). rewrite Ey. cbn [odate option_map adjustment].
    assert (LY : d <= kr_date (h y)).
    { destruct Iy as [<-|Iy]; [lia|]. assert (In y (b :: r)) as Iy' by (rewrite Q; right; apply in_or_app; auto). specialize (FA _ (in_map (date_of h) (b :: r) y Iy')). unfold date_of in *; lia. }
    assert (LX : kr_date (h y) < kr_date (h x)).
    { change (StronglySorted Z.lt (List.map (date_of h) (b :: r))) in S'. rewrite Q in S'. clear -S' Iy. change (b :: l1 ++ x :: l2) with ((b :: l1) ++ x :: l2) in S'. revert S' Iy. generalize (b :: l1). intros l. induction l as [|z l IH]; intros S I; [destruct I|].
      cbn in S. inversion S as [|? ? S' F]; subst. destruct I as [->|I]; [|apply IH; auto]. rewrite Forall_forall in F. apply F. rewrite map_app. apply in_or_app. right. left. reflexivity. }
    destruct (odate h (hd_error l2)) as [f|].
    - replace (d <=? kr_date (h y)) with true by lia. rewrite orb_true_r. reflexivity.
    - replace (kr_date (h x) <=? d) with false by lia. replace (d <=? kr_date (h y)) with true by lia. reflexivity. }
  destruct (MZ r h' Z1) as (ws & E2 & V2).
  exists h'. do 2 eexists. split; [exact E|]. unfold coll_call, col. split; [|split; [|split]].
  - change (mapM (fun a => kr_call (h a) d) (a :: b :: r)) with (do x <- kr_call (h a) d; do bs <- mapM (fun a => kr_call (h a) d) (b :: r); Ok (x :: bs)).
    rewrite CA. cbn [bind]. rewrite E1. cbn [bind]. reflexivity.
  - cbn [fold_left]. rewrite fold_Qplus, V1, Ba. ring.
  - cbn [mapM]. rewrite Ha, CA. cbn [bind]. rewrite CB. cbn [bind]. rewrite E2. cbn [bind]. reflexivity.
  - cbn [fold_left]. rewrite fold_Qplus, V2, Ba, Bb. ring.
Qed.
Print Assumptions C25_slice_breaks_original.

(** Re-linking the first collection (e.g. by set_bump_val) makes it a parallel shift again, whatever was done to its
    members in between: C21_set_bump has no hypothesis on their links. *)
Theorem C25_relink_restores : forall h col c b d, (2 <= List.length col)%nat -> StronglySorted Z.lt (List.map (date_of h) col) ->
  c <> THIRTY360 -> (forall a, In a col -> kr_dcc (h a) = c /\ countable c (kr_date (h a))) ->
  exists h', coll_set_bump_val b col h = (h', Ok tt) /\ neighbours h' col /\ exists v, coll_call h' col d = Ok v /\ (v == b)%Q.
Proof.
  intros h col c b d L S NC G. destruct (C21_set_bump h col c b d L S NC G) as (h' & E & V). exists h'. split; auto. split; auto.
  destruct (set_bumps_spec b col h) as (h1 & E1 & S1).
  assert (NE : col <> []) by (intros ->; cbn in L; lia).
  assert (I1 : increasing h1 col).
  { unfold increasing, dates. rewrite (map_ext _ (date_of h)); auto. intros a. apply S1. }
  destruct (set_dates_ok col h1 NE I1) as (h2 & E2 & L2).
  unfold coll_set_bump_val in E. rewrite (andthen_ok _ _ _ _ _ E1) in E. unfold create_combined_adjustment_function in E. rewrite E in E2. injection E2 as <-.
  eapply linked_neighbours; eauto.
Qed.
Print Assumptions C25_relink_restores.

Example C25_case : let '(h1, r1) := new_collection [0%nat; 1%nat; 2%nat] ex_heap in r1 = Ok [0%nat; 1%nat; 2%nat] /\
  let '(h2, r2) := getslice [0%nat; 1%nat; 2%nat] 1 3 h1 in r2 = Ok [1%nat; 2%nat] /\
  match coll_call h2 [0%nat; 1%nat; 2%nat] 738500 with Ok v => Qeq_bool v (2 # 10000) = true | _ => False end.
Proof. vm_compute. auto. Qed.
