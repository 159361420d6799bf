(** Property theorems C33-C35 (cashflows) and C47 (portfolios). *)
From Verif Require Import Base PyDate DayCount PyList KeyRate KeyRateFacts P_KeyRate Curve CurveFacts Cashflow CashflowFacts.
From Coq Require Import Sorting.Sorted Permutation Lra Lqa.
Open Scope Z_scope.
Ltac lra := first [Lra.lra | Lqa.lra].

(** ---- C33 ---- *)
(** a cashflow after a history: constructed from [l], then the payments [ps] added one by one *)
Definition cf_history (l ps : list payment) : cashflow := fold_left (fun c p => add_payment p c) ps (new_cashflow l).
Definition dated (d : date) (l : list payment) : list payment := filter (fun p => payment_date p =? d) l.

Lemma add_payment_app p l : add_payment p (new_cashflow l) = new_cashflow (l ++ [p]).
Proof. unfold add_payment, new_cashflow, sort_by. rewrite fold_left_app. reflexivity. Qed.

Lemma history_sorts ps : forall l, cf_history l ps = new_cashflow (l ++ ps).
Proof.
  unfold cf_history. induction ps as [|p ps IH]; intros l; cbn; [rewrite app_nil_r; auto|].
  rewrite add_payment_app, IH, <- app_assoc. reflexivity.
Qed.

(** After any history the schedule has exactly the payments given, in date order, equal dates in the order they were given. *)
Theorem C33_sorted_history : forall l ps, let c := cf_history l ps in
  StronglySorted Z.le (List.map payment_date c) /\ Permutation c (l ++ ps) /\ (forall d, dated d c = dated d (l ++ ps)).
Proof.
  intros l ps c. unfold c. rewrite history_sorts. split; [apply sort_by_sorted|]. split; [apply sort_by_perm|].
  intros d. apply (sort_by_stable payment_date d).
Qed.
Print Assumptions C33_sorted_history.

(** ... and these conditions determine the schedule. *)
Theorem C33_determined : forall l c, StronglySorted Z.le (List.map payment_date c) -> (forall d, dated d c = dated d l) -> c = new_cashflow l.
Proof.
  intros l c S D. apply (sorted_stable_unique payment_date); auto; [apply sort_by_sorted|].
  intros k. unfold new_cashflow. rewrite sort_by_stable. apply D.
Qed.
Print Assumptions C33_determined.

Lemma SS_firstn (m : list Z) : forall k, StronglySorted Z.le m -> StronglySorted Z.le (firstn k m).
Proof.
  induction m as [|x m IH]; intros k S; [rewrite firstn_nil; constructor|]. destruct k; cbn; [constructor|].
  inversion S as [|? ? H1 H2]; subst. constructor; auto. apply Forall_forall. intros z I. rewrite Forall_forall in H2. apply H2.
  rewrite <- (firstn_skipn k m). apply in_or_app; auto.
Qed.
Lemma SS_skipn (m : list Z) : forall k, StronglySorted Z.le m -> StronglySorted Z.le (skipn k m).
Proof. induction m as [|x m IH]; intros k S; [destruct k; constructor|]. destruct k; cbn; [auto|]. inversion S; subst; auto. Qed.

(** Slicing a cashflow keeps the order of its payments. *)
Theorem C33_slice : forall l ps i j, let c := cf_history l ps in cf_getslice c i j = firstn (j - i) (skipn i c).
Proof.
  intros l ps i j c. unfold cf_getslice, new_cashflow. apply sort_by_id. unfold slice.
  rewrite <- firstn_map, <- skipn_map. apply SS_firstn, SS_skipn, C33_sorted_history.
Qed.
Print Assumptions C33_slice.

(** create_from_date_and_float_iterables pairs dates and amounts, refusing different lengths. *)
Theorem C33_from_iterables : forall ds amounts,
  (List.length ds <> List.length amounts -> create_from_iterables ds amounts = Err ValueError) /\
  (List.length ds = List.length amounts -> exists c, create_from_iterables ds amounts = Ok c /\
     StronglySorted Z.le (List.map payment_date c) /\
     Permutation (List.map (fun p => (payment_date p, amount p)) c) (combine ds amounts)).
Proof.
  intros ds am. unfold create_from_iterables. split; intros L.
  - apply Nat.eqb_neq in L. rewrite L. auto.
  - apply Nat.eqb_eq in L. rewrite L. eexists. split; [reflexivity|]. split; [apply sort_by_sorted|].
    unfold new_cashflow. rewrite sort_by_perm. rewrite map_map. cbn.
    erewrite map_ext; [rewrite map_id; reflexivity|]. intros []; reflexivity.
Qed.
Print Assumptions C33_from_iterables.

(** Reading a cashflow: its length, its payments by position (negative ones from the end, anything else IndexError), in date order; dates and amounts read off separately
    give the cashflow back. *)
Theorem C33_access : forall l ps, let c := cf_history l ps in cf_len c = (List.length l + List.length ps)%nat /\
  (forall i p, cf_getitem c i = Ok p <-> nth_error c (Z.to_nat (if i <? 0 then i + Z.of_nat (cf_len c) else i)) = Some p /\ - Z.of_nat (cf_len c) <= i < Z.of_nat (cf_len c)) /\
  (forall i, ~ - Z.of_nat (cf_len c) <= i < Z.of_nat (cf_len c) -> cf_getitem c i = Err IndexError) /\
  (forall i j p q, 0 <= i <= j -> cf_getitem c i = Ok p -> cf_getitem c j = Ok q -> payment_date p <= payment_date q) /\
  create_from_iterables (get_payment_dates c) (get_payment_amounts c) = Ok c.
Proof.
  intros l ps c. destruct (C33_sorted_history l ps) as (S & P & _). fold c in S, P.
  assert (G : forall i p, cf_getitem c i = Ok p <-> nth_error c (Z.to_nat (if i <? 0 then i + Z.of_nat (cf_len c) else i)) = Some p /\ - Z.of_nat (cf_len c) <= i < Z.of_nat (cf_len c)).
  { intros i p. unfold cf_getitem, py_index. fold (cf_len c). set (j := if i <? 0 then i + Z.of_nat (cf_len c) else i). assert (J : (0 <=? j) && (j <? Z.of_nat (cf_len c)) = true <-> - Z.of_nat (cf_len c) <= i < Z.of_nat (cf_len c)) by (unfold j; destruct (i <? 0) eqn:?; lia).
    destruct ((0 <=? j) && (j <? Z.of_nat (cf_len c))); cbn [bind]; [|split; [discriminate|intros [_ H]; apply J in H; discriminate]]. destruct (nth_error c (Z.to_nat j)) as [q|]; split; [intros [= ->]; split; [reflexivity|apply J; reflexivity]|intros [[= ->] _]; reflexivity|discriminate|intros [? _]; discriminate]. }
  split; [unfold cf_len; rewrite (Permutation_length P), app_length; reflexivity|]. split; [exact G|]. split; [|split].
  - intros i H. unfold cf_getitem, py_index. fold (cf_len c). destruct (i <? 0) eqn:?; match goal with |- context [(0 <=? ?a) && ?b] => replace ((0 <=? a) && b) with false by lia end; reflexivity.
  - intros i j p q L Pi Pj. apply G in Pi, Pj. destruct Pi as [Pi _], Pj as [Pj _]. replace (i <? 0) with false in Pi by lia. replace (j <? 0) with false in Pj by lia.
    clear -S L Pi Pj. assert (L' : (Z.to_nat i <= Z.to_nat j)%nat) by lia. revert L' Pi Pj. generalize (Z.to_nat i), (Z.to_nat j). clear L. induction c as [|x c IH]; intros m n L Pm Pn; [destruct m; discriminate|].
    cbn [List.map] in S. inversion S as [|? ? S1 S2]; subst. destruct m, n; cbn in Pm, Pn; [injection Pm as <-; injection Pn as <-; lia| |lia|apply (IH S1 m n); [lia|auto|auto]].
    injection Pm as <-. apply nth_error_In in Pn. rewrite Forall_map, Forall_forall in S2. exact (S2 q Pn).
  - unfold create_from_iterables, get_payment_dates, get_payment_amounts. rewrite !map_length, Nat.eqb_refl. f_equal.
    replace (List.map (fun p => Payment (fst p) (snd p)) (combine (List.map payment_date c) (List.map amount c))) with c; [apply sort_by_id; exact S|]. clear. induction c as [|[d a] c IH]; cbn; [reflexivity|]. rewrite <- IH. reflexivity.
Qed.
Print Assumptions C33_access.

Example C33_case : let c := cf_history [Payment 5 (Some 1%R); Payment 3 None] [Payment 5 (Some 2%R); Payment 4 (Some 3%R)] in
  c = [Payment 3 None; Payment 4 (Some 3%R); Payment 5 (Some 1%R); Payment 5 (Some 2%R)].
Proof. reflexivity. Qed.

(** ---- C34 ---- *)
(** a payment counts if it has an amount and is not dated before the curve's reference date *)
Definition counts (dc : curve) (p : payment) : Prop := amount p <> None /\ c_ref dc <= payment_date p.
(** value of one payment given discount factors [df] *)
Definition worth (df : date -> R) (ref : date) (p : payment) : R :=
  match amount p with Some a => if ref <=? payment_date p then (df (payment_date p) * a)%R else 0%R | None => 0%R end.

Lemma live_counts dc p : live dc p = true <-> counts dc p.
Proof. unfold live, counts. destruct (amount p); split; [intros; split; [discriminate|lia] | intros []; lia | discriminate | intros [[] _]; auto]. Qed.

Lemma pv_sum spline dc df c : (forall p, In p c -> counts dc p -> interpolate spline dc (payment_date p) None = Ok (df (payment_date p))) ->
  cf_present_value spline c dc = Ok (rsum (List.map (worth df (c_ref dc)) c)).
Proof.
  intros H. unfold cf_present_value. rewrite pv_terms_spec.
  assert (G : exists l, mapM (fun p => do x <- interpolate spline dc (payment_date p) None; Ok (x * amt p)%R) (filter (live dc) c) = Ok l /\
    rsum l = rsum (List.map (worth df (c_ref dc)) c)).
  { induction c as [|p c IH]; [exists []; auto|]. destruct IH as (l & E & S); [intros; apply H; auto; right; auto|].
    cbn [filter List.map]. destruct (live dc p) eqn:L.
    - cbn [mapM]. rewrite H by (try (left; reflexivity); apply live_counts, L). cbn [bind]. rewrite E. cbn [bind].
      eexists. split; [reflexivity|]. rewrite !rsum_cons, S. f_equal. unfold worth, amt. unfold live in L. destruct (amount p); [|discriminate].
      rewrite L. auto.
    - exists l. split; [exact E|]. rewrite rsum_cons, S. assert (W : worth df (c_ref dc) p = 0%R).
      { unfold worth. unfold live in L. destruct (amount p); [rewrite L|]; auto. } rewrite W. lra. }
  destruct G as (l & -> & E). cbn. f_equal. exact E.
Qed.

(** The present value is the sum, over the payments that count, of discount factor times amount. *)
Theorem C34_sum : forall spline dc df l, (forall p, In p l -> counts dc p -> interpolate spline dc (payment_date p) None = Ok (df (payment_date p))) ->
  cf_present_value spline (new_cashflow l) dc = Ok (rsum (List.map (worth df (c_ref dc)) l)).
Proof.
  intros spline dc df l H. assert (P : Permutation (new_cashflow l) l) by apply sort_by_perm.
  rewrite (pv_sum spline dc df).
  - f_equal. apply rsum_perm, Permutation_map, P.
  - intros p I. apply H. eapply Permutation_in; eauto.
Qed.
Print Assumptions C34_sum.

(** It raises exactly if the curve raises at a payment that counts. *)
Theorem C34_errors : forall spline dc l, (exists e, cf_present_value spline (new_cashflow l) dc = Err e) <->
  exists p e, In p l /\ counts dc p /\ interpolate spline dc (payment_date p) None = Err e.
Proof.
  intros spline dc l. assert (P : Permutation (new_cashflow l) l) by apply sort_by_perm. unfold cf_present_value. rewrite pv_terms_spec. split.
  - intros (e & E). destruct (mapM _ _) as [x|e'] eqn:M; cbn in E; [discriminate|]. apply mapM_err in M. destruct M as (p & I & M).
    apply filter_In in I. destruct I as [I L]. exists p. destruct (interpolate spline dc (payment_date p) None) as [x|e2]; cbn in M; [discriminate|].
    exists e2. split; [eapply Permutation_in; eauto|]. split; [apply live_counts, L|auto].
  - intros (p & e & I & L & E). destruct (mapM _ _) as [x|e'] eqn:M; cbn; [exfalso|eauto].
    apply mapM_Forall2 in M. assert (I' : In p (filter (live dc) (new_cashflow l))).
    { apply filter_In. split; [eapply Permutation_in; [apply Permutation_sym; eauto|auto] | apply live_counts, L]. }
    destruct (Forall2_in_l _ _ _ _ M I') as (y & _ & Y). rewrite E in Y. discriminate.
Qed.
Print Assumptions C34_errors.

(** Order of the payments does not matter; merging cashflows adds, scaling amounts scales. *)
Theorem C34_order_merge_scale : forall spline dc l l' v v', cf_present_value spline (new_cashflow l) dc = Ok v ->
  cf_present_value spline (new_cashflow l') dc = Ok v' ->
  (Permutation l l' -> v = v') /\
  cf_present_value spline (new_cashflow (l ++ l')) dc = Ok (v + v')%R /\
  forall k, cf_present_value spline (new_cashflow (List.map (fun p => Payment (payment_date p) (option_map (Rmult k) (amount p))) l)) dc = Ok (k * v)%R.
Proof.
  intros spline dc l l' v v' E E'.
  set (df := fun d => match interpolate spline dc d None with Ok x => x | Err _ => 0%R end).
  assert (D : forall m u, cf_present_value spline (new_cashflow m) dc = Ok u ->
    forall p, In p m -> counts dc p -> interpolate spline dc (payment_date p) None = Ok (df (payment_date p))).
  { intros m u Em p I C. unfold df. destruct (interpolate spline dc (payment_date p) None) as [x|e] eqn:X; [auto|]. exfalso.
    assert (exists e, cf_present_value spline (new_cashflow m) dc = Err e) as (e' & Z) by (apply C34_errors; eauto). congruence. }
  pose proof (D l v E) as Dl. pose proof (D l' v' E') as Dl'.
  pose proof (C34_sum spline dc df l Dl) as S1. pose proof (C34_sum spline dc df l' Dl') as S2.
  rewrite E in S1. rewrite E' in S2. injection S1 as ->. injection S2 as ->. split; [|split].
  - intros P. apply rsum_perm, Permutation_map, P.
  - rewrite (C34_sum spline dc df), map_app, rsum_app; [auto|]. intros p I. apply in_app_or in I. destruct I; auto.
  - intros k. rewrite (C34_sum spline dc df).
    + rewrite map_map. rewrite <- rsum_scale, map_map. f_equal. f_equal. apply map_ext. intros p. unfold worth. cbn.
      destruct (amount p); cbn; [|lra]. destruct (c_ref dc <=? payment_date p); lra.
    + intros p I C. apply in_map_iff in I. destruct I as (q & <- & I). cbn. apply Dl; auto. destruct C as [C1 C2]. split; auto.
      cbn in C1. destruct (amount q); [discriminate | auto].
Qed.
Print Assumptions C34_order_merge_scale.

(** A zero coupon is worth the discount factor of its date, or 0 if that is past. *)
Theorem C34_zero_coupon : forall spline dc d price v, interpolate spline dc d None = Ok v ->
  zc_present_value spline (new_zero_coupon d price) dc = Ok (if c_ref dc <=? d then v else 0%R).
Proof.
  intros spline dc d price v E. unfold zc_present_value. cbn [new_zero_coupon zc_cfs cfc_getitem new_cf_collection combine fold_left dict_set dict_get cfc_dict fst snd key_eqb bind].
  rewrite (C34_sum spline dc (fun _ => v)).
  - cbn. unfold worth, rsum. cbn. destruct (c_ref dc <=? d); f_equal; lra.
  - intros p [<-|[]] _. exact E.
Qed.
Print Assumptions C34_zero_coupon.

Example C34_case : exists dc, new_curve [(10, 1%R); (20, 1%R)] LINEAR ACT360 None ERROR ERROR = Ok dc /\
  cf_present_value (fun _ _ _ => 0%R) (new_cashflow [Payment 20 (Some 5%R); Payment 3 (Some 7%R); Payment 10 (Some 2%R); Payment 11 None]) dc = Ok 7%R.
Proof.
  eexists. split; [vm_compute; reflexivity|]. rewrite (C34_sum _ _ (fun _ => 1%R)).
  - cbn. unfold worth, rsum. cbn. f_equal. lra.
  - intros p [<-|[<-|[<-|[<-|[]]]]] [A B]; cbn in *; try lia; try congruence.
    + transitivity (@Ok R (1 + 0)%R); [vm_compute; reflexivity | f_equal; lra].
    + transitivity (@Ok R (1 + 0)%R); [vm_compute; reflexivity | f_equal; lra].
Qed.

(** ---- C35 ---- *)
Lemma key_eqb_spec a b : key_eqb a b = true <-> a = b.
Proof. destruct a, b; cbn; split; congruence. Qed.
Lemma key_eqb_refl a : key_eqb a a = true.
Proof. apply key_eqb_spec. auto. Qed.
Lemma key_eqb_neq a b : a <> b -> key_eqb a b = false.
Proof. intros N. destruct (key_eqb a b) eqn:E; auto. apply key_eqb_spec in E. contradiction. Qed.

Lemma dict_get_set d k v k' : dict_get (dict_set d k v) k' = if key_eqb k k' then Some v else dict_get d k'.
Proof.
  induction d as [|[k0 v0] d IH]; cbn [dict_set dict_get]; [reflexivity|]. destruct (key_eqb k0 k) eqn:E.
  - apply key_eqb_spec in E. subst. cbn [dict_get]. destruct (key_eqb k k'); reflexivity.
  - cbn [dict_get]. rewrite IH. destruct (key_eqb k0 k') eqn:E1; [|auto]. apply key_eqb_spec in E1. subst. rewrite key_eqb_neq; auto.
    intros ->. rewrite key_eqb_refl in E. discriminate.
Qed.

(** the cashflow last given for a key *)
Fixpoint last_for (k : cf_key) (l : list (cf_key * option cashflow)) : option (option cashflow) :=
  match l with
  | [] => None
  | (k', v) :: l => match last_for k l with Some w => Some w | None => if key_eqb k' k then Some v else None end
  end.

Lemma fold_set l : forall d k, dict_get (fold_left (fun d p => dict_set d (fst p) (snd p)) l d) k =
  match last_for k l with Some v => Some v | None => dict_get d k end.
Proof.
  induction l as [|[k0 v0] l IH]; intros d k; cbn [fold_left last_for fst snd]; [auto|]. rewrite IH.
  destruct (last_for k l); auto. rewrite dict_get_set. destruct (key_eqb k0 k); auto.
Qed.

(** operations on a collection *)
Definition cfc_history (l : list (option cashflow)) (keys : list cf_key) (ops : list (cf_key * option cashflow)) : cf_collection :=
  fold_left (fun c p => cfc_setitem (fst p) (snd p) c) ops (new_cf_collection l keys).

Lemma setitem_dict c k v : cfc_dict (cfc_setitem k v c) = dict_set (cfc_dict c) k v.
Proof. unfold cfc_setitem. destruct (cfc_contains c k); auto. Qed.

Lemma history_dict ops : forall c k, dict_get (cfc_dict (fold_left (fun c p => cfc_setitem (fst p) (snd p) c) ops c)) k =
  match last_for k ops with Some v => Some v | None => dict_get (cfc_dict c) k end.
Proof.
  induction ops as [|[k0 v0] ops IH]; intros c k; cbn [fold_left last_for fst snd]; [auto|]. rewrite IH, setitem_dict, dict_get_set.
  destruct (last_for k ops); auto. destruct (key_eqb k0 k); auto.
Qed.

(** After construction and any history of assignments, each key maps to the cashflow last given for it: lookup returns it,
    and KeyError if there was none; [in] tells which. *)
Theorem C35_last_given : forall l keys ops k, let c := cfc_history l keys ops in
  match last_for k (combine keys l ++ ops) with
  | Some v => cfc_getitem c k = Ok v /\ cfc_contains c k = true
  | None => cfc_getitem c k = Err KeyError /\ cfc_contains c k = false
  end.
Proof.
  intros l keys ops k c.
  assert (A : forall m, last_for k (m ++ ops) = match last_for k ops with Some v => Some v | None => last_for k m end).
  { induction m as [|[k0 v0] m IH]; cbn; [destruct (last_for k ops); auto|]. rewrite IH. destruct (last_for k ops); auto. }
  rewrite A. unfold cfc_getitem, cfc_contains, c, cfc_history. rewrite history_dict. cbn [new_cf_collection cfc_dict]. rewrite fold_set. cbn [dict_get].
  destruct (last_for k ops); [auto|]. destruct (last_for k (combine keys l)); auto.
Qed.
Print Assumptions C35_last_given.

(** Assignment replaces exactly one entry. *)
Theorem C35_assignment : forall c k v k', cfc_getitem (cfc_setitem k v c) k = Ok v /\
  (k' <> k -> cfc_getitem (cfc_setitem k v c) k' = cfc_getitem c k' /\ cfc_contains (cfc_setitem k v c) k' = cfc_contains c k') /\
  cfc_len (cfc_setitem k v c) = if cfc_contains c k then cfc_len c else S (cfc_len c).
Proof.
  intros c k v k'. unfold cfc_getitem, cfc_contains, cfc_len. rewrite setitem_dict, !dict_get_set, key_eqb_refl. split; [auto|]. split.
  - intros N. rewrite key_eqb_neq by congruence. auto.
  - generalize (cfc_dict c). intros d. induction d as [|[k0 v0] d IH]; cbn; [auto|]. destruct (key_eqb k0 k) eqn:E; cbn; [rewrite ?E; auto|].
    rewrite ?E, IH. destruct (dict_get d k); auto.
Qed.
Print Assumptions C35_assignment.

(** The stored list, though, is only extended by new keys: replacing leaves the old cashflow in it.  Iterating raises. *)
Theorem C35_list_stale_refuted : exists l keys k v, let c := cfc_setitem k v (new_cf_collection l keys) in
  cfc_getitem c k = Ok v /\ cfc_list c = l /\ ~ In v l /\ cfc_iter c = Err TypeError.
Proof.
  exists [Some []], [FIXED_LEG], FIXED_LEG, None. cbn. repeat split; auto. intros [E|[]]. discriminate.
Qed.
Print Assumptions C35_list_stale_refuted.

Example C35_case : cfc_getitem (cfc_history [Some []; None] [FIXED_LEG; FLOATING_LEG] [(FLOATING_LEG, Some [Payment 1 None])]) FLOATING_LEG = Ok (Some [Payment 1 None]).
Proof. reflexivity. Qed.

(** ---- C47 ---- *)
(** The portfolio's present value is cash plus quantities times unit values; order is irrelevant; joining portfolios adds. *)
Theorem C47_linear : forall p dc (v : entry -> R), (forall e, In e (assets p) -> asset_pv e dc = Ok (v e)) ->
  pf_present_value p dc = Ok (rsum (List.map (fun e => (quantity e * v e)%R) (assets p)) + cash_amount p)%R.
Proof.
  intros p dc v H. unfold pf_present_value.
  assert (E : mapM (fun e => do x <- asset_pv e dc; Ok (quantity e * x)%R) (assets p) = Ok (List.map (fun e => (quantity e * v e)%R) (assets p))).
  { induction (assets p) as [|e l IH]; [auto|]. cbn [mapM List.map]. rewrite H by (left; auto). cbn [bind]. rewrite IH by (intros; apply H; right; auto). auto. }
  rewrite E. auto.
Qed.
Print Assumptions C47_linear.

Theorem C47_order_and_join : forall p q dc v w, pf_present_value p dc = Ok v -> pf_present_value q dc = Ok w ->
  pf_present_value (Portfolio (assets p ++ assets q) (cash_amount p + cash_amount q)) dc = Ok (v + w)%R /\
  (Permutation (assets p) (assets q) -> cash_amount p = cash_amount q -> v = w) /\
  forall k, pf_present_value (Portfolio (List.map (fun e => Entry (k * quantity e) (asset_pv e) (asset_knot e)) (assets p)) (k * cash_amount p)) dc = Ok (k * v)%R.
Proof.
  intros p q dc v w Ep Eq. set (u := fun e => match asset_pv e dc with Ok x => x | Err _ => 0%R end).
  assert (D : forall r x, pf_present_value r dc = Ok x -> forall e, In e (assets r) -> asset_pv e dc = Ok (u e)).
  { intros r x Er e I. unfold pf_present_value in Er. destruct (mapM _ _) as [l|] eqn:M; [|discriminate]. apply mapM_Forall2 in M.
    destruct (Forall2_in_l _ _ _ _ M I) as (b & _ & B). unfold u. destruct (asset_pv e dc); [auto | discriminate]. }
  pose proof (C47_linear p dc u (D p v Ep)) as Lp. pose proof (C47_linear q dc u (D q w Eq)) as Lq.
  rewrite Ep in Lp. rewrite Eq in Lq. injection Lp as ->. injection Lq as ->. split; [|split].
  - rewrite (C47_linear _ dc u); cbn [assets cash_amount].
    + rewrite map_app, rsum_app. f_equal. lra.
    + intros e I. apply in_app_or in I. destruct I; [eapply (D p) | eapply (D q)]; eauto.
  - intros P C. f_equal; [|auto]. apply rsum_perm, Permutation_map, P.
  - intros k. rewrite (C47_linear _ dc u); cbn [assets cash_amount].
    + rewrite map_map. cbn [quantity asset_pv]. f_equal. rewrite Rmult_plus_distr_l. f_equal. rewrite <- rsum_scale, map_map. f_equal. apply map_ext. intros; unfold u; cbn; lra.
    + intros e I. apply in_map_iff in I. destruct I as (e0 & <- & I). unfold u; cbn. apply (D p _ Ep e0 I).
Qed.
Print Assumptions C47_order_and_join.

(** The key rates of a portfolio: one per asset, in date order with neighbours set; duplicate or no maturities raise. *)
Lemma alloc_spec c l : forall a h, exists h' r, alloc_key_rates c l a h = (h', Ok r) /\ r = seq a (List.length l) /\
  (forall b, (b < a)%nat -> h' b = h b) /\ List.map (fun x => kr_date (h' x)) r = l /\ (forall x, In x r -> kr_dcc (h' x) = c /\ kr_bump (h' x) = ONE_BASIS_POINT).
Proof.
  induction l as [|d l IH]; intros a h; cbn [alloc_key_rates].
  - exists h, []. repeat split; auto; intros; contradiction.
  - destruct (IH (S a) (upd h a (new_key_rate c d None None))) as (h' & r & E & R' & Lt & Dt & Cc).
    exists h', (a :: r). split; [unfold andthen; rewrite E; reflexivity|].
    assert (Ha : h' a = new_key_rate c d None None) by (rewrite Lt by lia; apply upd_same).
    split; [subst; cbn; auto|]. split; [intros b Lb; rewrite Lt by lia; apply upd_other; lia|]. split.
    + cbn [List.map]. rewrite Ha, Dt. reflexivity.
    + intros x [<-|I]; [rewrite Ha; split; reflexivity | auto].
Qed.

Theorem C47_key_rates : forall p c fresh h,
  (NoDup (List.map asset_knot (assets p)) -> assets p <> [] -> exists h' col, to_key_rate_collection p c fresh h = (h', Ok col) /\
     Permutation (List.map (fun a => kr_date (h' a)) col) (List.map asset_knot (assets p)) /\
     StronglySorted Z.lt (List.map (fun a => kr_date (h' a)) col) /\ neighbours h' col /\
     (forall a, In a col -> kr_dcc (h' a) = c /\ kr_bump (h' a) = ONE_BASIS_POINT)) /\
  (~ NoDup (List.map asset_knot (assets p)) \/ assets p = [] -> exists h', to_key_rate_collection p c fresh h = (h', Err ValueError)).
Proof.
  intros p c f h. unfold to_key_rate_collection, andthen.
  destruct (alloc_spec c (List.map asset_knot (assets p)) f h) as (h1 & r & -> & R' & _ & Dt & Cc). split.
  - intros ND NE. destruct (C22_construction h1 r) as (h' & col & E & P & S & N & Out & K).
    + intros X. apply NE. rewrite X in Dt. cbn in Dt. symmetry in Dt. apply map_eq_nil in Dt. auto.
    + unfold date_of. rewrite Dt. auto.
    + exists h', col. split; [exact E|]. split; [|split; [exact S|split; [exact N|]]].
      * rewrite <- Dt. rewrite (map_ext _ (fun a => kr_date (h1 a))) by (intros a; apply K). apply Permutation_map, P.
      * intros a I. destruct (K a) as (_ & B & D). destruct (Cc a) as [X Y]; [eapply Permutation_in; eauto|]. split; congruence.
  - intros X. apply C22_rejected. destruct X as [X|X]; [right | left].
    + unfold date_of. rewrite Dt. auto.
    + rewrite X in R'. subst. reflexivity.
Qed.
Print Assumptions C47_key_rates.

Example C47_case : pf_present_value (Portfolio [Entry 2 (fun _ => Ok 10%R) 5; Entry (-1) (fun _ => Ok 4%R) 7] 3) (Curve [] LINEAR ACT360 0 ERROR ERROR []) = Ok 19%R.
Proof. rewrite (C47_linear _ _ (fun e => if asset_knot e =? 5 then 10%R else 4%R)); cbn; [unfold rsum; cbn; f_equal; lra | intros e [<-|[<-|[]]]; reflexivity]. Qed.
