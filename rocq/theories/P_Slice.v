(** Property theorem C103: slices of cashflows and of key rate collections. *)
From Verif Require Import Base PyDate DayCount PyList KeyRate KeyRateFacts P_KeyRate Curve CurveFacts Cashflow CashflowFacts P_Cashflow PySlice.
From Coq Require Import Sorting.Sorted Permutation Lra Lqa.
From Verif Require Import KeyRateFacts.
Open Scope Z_scope.
Ltac lra := first [Lra.lra | Lqa.lra].

(** ---- the positions Python's documentation gives a slice ---- *)
Definition step_of (s : pyslice) : Z := match sl_step s with None => 1 | Some k => k end.
(** negative bounds count from the end, bounds outside the list are moved to its ends *)
Definition bound (n lo hi default : Z) (o : option Z) : Z :=
  match o with None => default | Some x => Z.max lo (Z.min hi (if x <? 0 then x + n else x)) end.
(** the positions i, i + k, i + 2k, ... of a list of length n, before reaching j *)
Definition selected (n : Z) (s : pyslice) (p : Z) : Prop :=
  let k := step_of s in
  if 0 <? k
  then let i := bound n 0 n 0 (sl_start s) in let j := bound n 0 n n (sl_stop s) in i <= p < j /\ (k | p - i)
  else let i := bound n (-1) (n - 1) (n - 1) (sl_start s) in let j := bound n (-1) (n - 1) (-1) (sl_stop s) in j < p <= i /\ (k | p - i).

Lemma start_bound n k o : 0 <= n -> k <> 0 -> adjust_start n k o = if 0 <? k then bound n 0 n 0 o else bound n (-1) (n - 1) (n - 1) o.
Proof.
  intros N K. unfold adjust_start, bound. destruct (k <? 0) eqn:E; [replace (0 <? k) with false by lia | replace (0 <? k) with true by lia];
  (destruct o as [x|]; [|reflexivity]); destruct (x <? 0) eqn:E1; cbv zeta; [destruct (x + n <? 0) eqn:E2; lia | destruct (n <=? x) eqn:E2; lia| destruct (x + n <? 0) eqn:E2; lia | destruct (n <=? x) eqn:E2; lia].
Qed.
Lemma stop_bound n k o : 0 <= n -> k <> 0 -> adjust_stop n k o = if 0 <? k then bound n 0 n n o else bound n (-1) (n - 1) (-1) o.
Proof.
  intros N K. unfold adjust_stop, bound. destruct (k <? 0) eqn:E; [replace (0 <? k) with false by lia | replace (0 <? k) with true by lia];
  (destruct o as [x|]; [|reflexivity]); destruct (x <? 0) eqn:E1; cbv zeta; [destruct (x + n <? 0) eqn:E2; lia | destruct (n <=? x) eqn:E2; lia| destruct (x + n <? 0) eqn:E2; lia | destruct (n <=? x) eqn:E2; lia].
Qed.

(** below the computed length, positions are before the stop *)
Lemma length_up a b k i : 0 < k -> 0 <= i -> (i < slice_length a b k <-> a + i * k < b).
Proof.
  intros K I. unfold slice_length. replace (k <? 0) with false by lia. destruct (a <? b) eqn:E; [|split; nia].
  pose proof (Z.div_mod (b - a - 1) k ltac:(lia)) as D. pose proof (Z.mod_pos_bound (b - a - 1) k K) as M.
  set (q := (b - a - 1) / k) in *. split; intros H; nia.
Qed.
Lemma length_down a b k i : k < 0 -> 0 <= i -> (i < slice_length a b k <-> b < a + i * k).
Proof.
  intros K I. unfold slice_length. replace (k <? 0) with true by lia. destruct (b <? a) eqn:E; [|split; nia].
  pose proof (Z.div_mod (a - b - 1) (- k) ltac:(lia)) as D. pose proof (Z.mod_pos_bound (a - b - 1) (- k) ltac:(lia)) as M.
  set (q := (a - b - 1) / - k) in *. split; intros H; nia.
Qed.

Lemma positions_spec n s : 0 <= n -> step_of s <> 0 -> exists ps, slice_positions n s = Ok ps /\
  (forall p, In p ps <-> selected n s p) /\ (forall p, In p ps -> 0 <= p < n) /\
  (0 < step_of s -> StronglySorted Z.lt ps) /\ (step_of s < 0 -> StronglySorted Z.gt ps).
Proof.
  intros N K. unfold slice_positions. fold (step_of s). replace (step_of s =? 0) with false by lia. set (k := step_of s) in *.
  cbv zeta. set (a := adjust_start n k (sl_start s)). set (b := adjust_stop n k (sl_stop s)).
  pose proof (start_bound n k (sl_start s) N K) as Ea. pose proof (stop_bound n k (sl_stop s) N K) as Eb. fold a in Ea. fold b in Eb.
  eexists. split; [reflexivity|].
  assert (Mem : forall p, In p (List.map (fun i => a + Z.of_nat i * k) (seq 0 (Z.to_nat (slice_length a b k)))) <-> selected n s p).
  { intros p. unfold selected. fold k. cbv zeta. rewrite in_map_iff. destruct (0 <? k) eqn:Pk; rewrite <- Ea, <- Eb.
    - split.
      + intros (i & <- & I). apply in_seq in I. pose proof (proj1 (length_up a b k (Z.of_nat i) ltac:(lia) ltac:(lia))) as U.
        split; [split; [nia | apply U; lia]|]. exists (Z.of_nat i). ring.
      + intros ([L1 L2] & q & Q). assert (0 <= q) by nia. exists (Z.to_nat q). split; [rewrite Z2Nat.id by lia; lia|].
        apply in_seq. pose proof (proj2 (length_up a b k q ltac:(lia) ltac:(lia)) ltac:(lia)). lia.
    - split.
      + intros (i & <- & I). apply in_seq in I. pose proof (proj1 (length_down a b k (Z.of_nat i) ltac:(lia) ltac:(lia))) as U.
        split; [split; [apply U; lia | nia]|]. exists (Z.of_nat i). ring.
      + intros ([L1 L2] & q & Q). assert (0 <= q) by nia. exists (Z.to_nat q). split; [rewrite Z2Nat.id by lia; lia|].
        apply in_seq. pose proof (proj2 (length_down a b k q ltac:(lia) ltac:(lia)) ltac:(lia)). lia. }
  split; [exact Mem|]. split.
  - intros p I. apply Mem in I. unfold selected in I. fold k in I. cbv zeta in I. unfold bound in I.
    destruct (0 <? k), (sl_start s), (sl_stop s); lia.
  - assert (SS : forall m j, (0 < k -> StronglySorted Z.lt (List.map (fun i => a + Z.of_nat i * k) (seq j m))) /\
                             (k < 0 -> StronglySorted Z.gt (List.map (fun i => a + Z.of_nat i * k) (seq j m)))).
    { induction m as [|m IH]; intros j; cbn [seq List.map]; split; intros Hk; constructor; try (apply IH; exact Hk);
      apply Forall_forall; intros p I; apply in_map_iff in I; destruct I as (i & <- & I); apply in_seq in I; nia. }
    split; apply SS.
Qed.

Lemma mapM_items {A} (l : list A) : forall ps, (forall p, In p ps -> 0 <= p < Z.of_nat (List.length l)) ->
  exists r, mapM (list_item l) ps = Ok r /\ Forall2 (fun p x => nth_error l (Z.to_nat p) = Some x) ps r.
Proof.
  induction ps as [|p ps IH]; intros H; [exists []; split; [reflexivity | constructor]|].
  destruct IH as (r & E & F); [intros; apply H; right; auto|]. specialize (H p ltac:(left; auto)).
  destruct (nth_error l (Z.to_nat p)) as [x|] eqn:X; [|apply nth_error_None in X; lia].
  exists (x :: r). cbn [mapM]. unfold list_item at 1. replace ((0 <=? p) && (p <? Z.of_nat (List.length l))) with true by lia.
  rewrite X. cbn [bind]. rewrite E. split; [reflexivity | constructor; auto].
Qed.

(** A slice lists the items at the selected positions, in increasing order of position for a positive step and decreasing for a
    negative one; a step of zero raises ValueError. *)
Theorem C103_selected : forall (A : Type) (l : list A) s, let n := Z.of_nat (List.length l) in
  (step_of s = 0 -> py_slice l s = Err ValueError) /\
  (step_of s <> 0 -> exists ps r, py_slice l s = Ok r /\ Forall2 (fun p x => 0 <= p /\ nth_error l (Z.to_nat p) = Some x) ps r /\
     (forall p, In p ps <-> selected n s p) /\
     (0 < step_of s -> StronglySorted Z.lt ps) /\ (step_of s < 0 -> StronglySorted Z.gt ps)).
Proof.
  intros A l s n. unfold py_slice. fold n. split; intros K.
  - unfold slice_positions. fold (step_of s). rewrite K. reflexivity.
  - destruct (positions_spec n s ltac:(unfold n; lia) K) as (ps & E & M & B & U & D). destruct (mapM_items l ps B) as (r & R & F).
    exists ps, r. rewrite E. cbn [bind]. split; [exact R|]. split; [|auto].
    clear - F B. induction F as [|p x ps r H F IH]; constructor; [split; [apply B; left; auto | auto]|]. apply IH. intros; apply B; right; auto.
Qed.
Print Assumptions C103_selected.

(** ---- consequences ---- *)
Lemma skipn_cons_nth {A} (l : list A) k x : nth_error l k = Some x -> skipn k l = x :: skipn (S k) l.
Proof. revert k. induction l as [|y l IH]; intros [|k] H; try discriminate; [cbn in *; congruence|]. cbn [skipn] in *. apply (IH k). exact H. Qed.

(** items at strictly increasing positions form a sublist *)
Inductive sublist {A} : list A -> list A -> Prop :=
| sub_nil : sublist [] []
| sub_skip x l l' : sublist l l' -> sublist l (x :: l')
| sub_keep x l l' : sublist l l' -> sublist (x :: l) (x :: l').
Lemma sublist_nil {A} (l : list A) : sublist [] l.
Proof. induction l; constructor; auto. Qed.
Lemma sublist_in {A} (l l' : list A) : sublist l l' -> forall x, In x l -> In x l'.
Proof. induction 1; intros y I; [auto | right; auto |]. destruct I; [left; auto | right; auto]. Qed.
Lemma sublist_map {A B} (f : A -> B) (l l' : list A) : sublist l l' -> sublist (List.map f l) (List.map f l').
Proof. induction 1; cbn; [constructor | apply sub_skip | apply sub_keep]; auto. Qed.
Lemma sublist_sorted {A} (R : A -> A -> Prop) (l l' : list A) : sublist l l' -> StronglySorted R l' -> StronglySorted R l.
Proof.
  induction 1 as [|x l l' H IH|x l l' H IH]; intros S; auto; inversion S as [|? ? S' F]; subst; [auto|]. constructor; [auto|].
  rewrite Forall_forall in *. intros y I. apply F. eapply sublist_in; eauto.
Qed.
Lemma increasing_sublist {A} : forall (l : list A) ps r m, Forall2 (fun p x => m <= p /\ nth_error l (Z.to_nat (p - m)) = Some x) ps r ->
  StronglySorted Z.lt ps -> sublist r l.
Proof.
  induction l as [|y l IH]; intros ps r m F S.
  - destruct F as [|p x ps r [_ H] F]; [constructor|]. destruct (Z.to_nat (p - m)); discriminate.
  - destruct F as [|p x ps r [L H] F]; [apply sublist_nil|]. inversion S as [|? ? S' FA]; subst. rewrite Forall_forall in FA.
    destruct (Z.eq_dec p m) as [->|N].
    + rewrite Z.sub_diag in H. cbn in H. injection H as ->. apply sub_keep. apply (IH ps r (m + 1)); auto.
      clear - F FA. induction F as [|q z ps r [L H] F IHF]; constructor; [|apply IHF; intros; apply FA; right; auto].
      specialize (FA q ltac:(left; auto)). split; [lia|]. replace (Z.to_nat (q - m)) with (Datatypes.S (Z.to_nat (q - (m + 1)))) in H by lia. exact H.
    + apply sub_skip. apply (IH (p :: ps) (x :: r) (m + 1)); auto.
      assert (G : forall q z, m < q -> nth_error (y :: l) (Z.to_nat (q - m)) = Some z -> m + 1 <= q /\ nth_error l (Z.to_nat (q - (m + 1))) = Some z).
      { intros q z Lq Hq. split; [lia|]. replace (Z.to_nat (q - m)) with (Datatypes.S (Z.to_nat (q - (m + 1)))) in Hq by lia. exact Hq. }
      constructor; [apply G; auto; lia|].
      clear - F FA G L. induction F as [|q z ps r [L' H] F IHF]; constructor; [|apply IHF; intros; apply FA; right; auto].
      apply G; auto. specialize (FA q ltac:(left; auto)). lia.
Qed.
Lemma sorted_gt_rev ps : StronglySorted Z.gt ps -> StronglySorted Z.lt (rev ps).
Proof.
  induction 1 as [|p ps S IH F]; cbn; [constructor|]. rewrite Forall_forall in F.
  assert (G : forall q, In q (rev ps) -> q < p) by (intros q I; apply in_rev in I; specialize (F q I); lia). clear F.
  induction IH as [|q l S' IH F]; cbn; [constructor; constructor|]. constructor.
  - apply IH. intros; apply G; right; auto.
  - apply Forall_forall. intros z I. apply in_app_or in I. destruct I as [I|[<-|[]]]; [rewrite Forall_forall in F; auto | apply G; left; auto].
Qed.
Lemma Forall2_rev' {A B} (R : A -> B -> Prop) l m : Forall2 R l m -> Forall2 R (rev l) (rev m).
Proof. induction 1; cbn; [constructor|]. apply Forall2_app; auto. Qed.
Lemma slice_sublist {A} (l : list A) s r : py_slice l s = Ok r ->
  (0 < step_of s -> sublist r l) /\ (step_of s < 0 -> sublist (rev r) l) /\ step_of s <> 0.
Proof.
  intros E. destruct (C103_selected A l s) as [Z0 NZ]. destruct (Z.eq_dec (step_of s) 0) as [K|K]; [rewrite (Z0 K) in E; discriminate|].
  destruct (NZ K) as (ps & r' & E' & F & _ & U & D). rewrite E in E'. injection E' as <-.
  assert (F0 : Forall2 (fun p x => 0 <= p /\ nth_error l (Z.to_nat (p - 0)) = Some x) ps r).
  { clear - F. induction F as [|p x ps r H F IH]; constructor; auto. rewrite Z.sub_0_r. exact H. }
  split; [|split; [|auto]]; intros Hk.
  - apply (increasing_sublist l ps r 0); auto.
  - apply (increasing_sublist l (rev ps) (rev r) 0); [apply Forall2_rev'; auto | apply sorted_gt_rev; auto].
Qed.

(** A slice of a cashflow is a cashflow of the selected payments: for a positive step in their order, for a negative step again
    in date order when no two of its payments share a date. *)
Theorem C103_cashflow : forall l ps s r, let c := cf_history l ps in py_slice c s = Ok r ->
  exists c', cf_getitem_slice c s = Ok c' /\ Permutation c' r /\ StronglySorted Z.le (List.map payment_date c') /\
    (0 < step_of s -> c' = r) /\ (step_of s < 0 -> NoDup (List.map payment_date c) -> c' = rev r).
Proof.
  intros l ps s r c E. destruct (slice_sublist c s r E) as (U & D & K). destruct (C33_sorted_history l ps) as (S & _ & _). fold c in S.
  unfold cf_getitem_slice. rewrite E. cbn [bind]. eexists. split; [reflexivity|]. split; [apply sort_by_perm|]. split; [apply sort_by_sorted|]. split.
  - intros Hk. apply sort_by_id. eapply sublist_sorted; [apply sublist_map, U; auto | exact S].
  - intros Hk ND. unfold new_cashflow. rewrite (sort_by_unique payment_date r (rev r)).
    + apply sort_by_id. eapply sublist_sorted; [apply sublist_map, D; auto | exact S].
    + specialize (D Hk). assert (NDr : NoDup (List.map payment_date (rev r))).
      { clear - D ND. induction D as [|x la lb H IH|x la lb H IH]; cbn in *; auto; apply NoDup_cons_iff in ND; destruct ND as [N ND]; auto.
        constructor; auto. intros I. apply N. eapply sublist_in; [apply sublist_map; exact H | exact I]. }
      rewrite map_rev in NDr. apply NoDup_rev in NDr. rewrite rev_involutive in NDr. exact NDr.
    + apply Permutation_rev.
Qed.
Print Assumptions C103_cashflow.

(** consecutive items *)
Lemma items_from {A} (l : list A) : forall m a, (a + m <= List.length l)%nat ->
  mapM (list_item l) (List.map (fun i => Z.of_nat a + Z.of_nat i * 1) (seq 0 m)) = Ok (firstn m (skipn a l)).
Proof.
  intros m a. enough (G : forall m j, (a + j + m <= List.length l)%nat ->
    mapM (list_item l) (List.map (fun i => Z.of_nat a + Z.of_nat i * 1) (seq j m)) = Ok (firstn m (skipn (a + j) l))).
  { intros H. rewrite (G m 0%nat) by lia. rewrite Nat.add_0_r. reflexivity. }
  clear m. induction m as [|m IH]; intros j H; [reflexivity|]. cbn [seq List.map mapM]. unfold list_item at 1.
  replace ((0 <=? Z.of_nat a + Z.of_nat j * 1) && (Z.of_nat a + Z.of_nat j * 1 <? Z.of_nat (List.length l))) with true by lia.
  replace (Z.to_nat (Z.of_nat a + Z.of_nat j * 1)) with (a + j)%nat by lia.
  destruct (nth_error l (a + j)) as [x|] eqn:X; [|apply nth_error_None in X; lia]. cbn [bind].
  rewrite (IH (S j)) by lia. cbn [bind]. rewrite (skipn_cons_nth l (a + j) x X). replace (a + S j)%nat with (S (a + j)) by lia. reflexivity.
Qed.
Lemma unit_slice {A} (l : list A) i j : let n := Z.of_nat (List.length l) in
  let a := bound n 0 n 0 i in let b := bound n 0 n n j in
  py_slice l (Slice i j None) = Ok (firstn (Z.to_nat (b - a)) (skipn (Z.to_nat a) l)).
Proof.
  intros n a b. unfold py_slice. fold n. unfold slice_positions. cbn [sl_step sl_start sl_stop]. change (1 =? 0) with false. cbv iota zeta.
  rewrite start_bound, stop_bound by (unfold n; lia). change (0 <? 1) with true. cbv iota. fold a b. cbn [bind].
  assert (La : 0 <= a <= n) by (unfold a, bound; destruct i; lia). assert (Lb : 0 <= b <= n) by (unfold b, bound; destruct j; lia).
  assert (Len : Z.to_nat (slice_length a b 1) = Z.to_nat (b - a)).
  { unfold slice_length. change (1 <? 0) with false. cbv iota. destruct (a <? b) eqn:E; [rewrite Z.div_1_r|]; lia. }
  rewrite Len. destruct (Z_le_gt_dec a b) as [L|L].
  - rewrite <- (items_from l (Z.to_nat (b - a)) (Z.to_nat a)) by (unfold n in *; lia). rewrite Z2Nat.id by lia. reflexivity.
  - replace (Z.to_nat (b - a)) with 0%nat by lia. reflexivity.
Qed.

(** Cutting a cashflow at any position, in range or not, splits it: c[:k] and c[k:] together are c, and their present values add
    up to that of c. *)
Theorem C103_split : forall l ps k, let c := cf_history l ps in exists c1 c2,
  cf_getitem_slice c (Slice None (Some k) None) = Ok c1 /\ cf_getitem_slice c (Slice (Some k) None None) = Ok c2 /\ c = c1 ++ c2 /\
  forall spline dc v, cf_present_value spline c dc = Ok v <->
    exists v1 v2, cf_present_value spline c1 dc = Ok v1 /\ cf_present_value spline c2 dc = Ok v2 /\ v = (v1 + v2)%R.
Proof.
  intros l ps k c. set (n := Z.of_nat (List.length c)). set (b := Z.max 0 (Z.min n (if k <? 0 then k + n else k))).
  pose proof (unit_slice c None (Some k)) as E1. pose proof (unit_slice c (Some k) None) as E2. cbn [bound] in E1, E2. fold n b in E1, E2.
  rewrite Z.sub_0_r in E1. cbn [skipn Z.to_nat] in E1.
  assert (Lb : 0 <= b <= n) by (unfold b; lia).
  rewrite (firstn_all2 (n := Z.to_nat (n - b))) in E2 by (rewrite skipn_length; unfold n in *; lia).
  destruct (C103_cashflow l ps _ _ E1) as (c1 & F1 & _ & _ & U1 & _). destruct (C103_cashflow l ps _ _ E2) as (c2 & F2 & _ & _ & U2 & _).
  specialize (U1 ltac:(cbn; lia)). specialize (U2 ltac:(cbn; lia)).
  exists c1, c2. split; [exact F1|]. split; [exact F2|].
  assert (Ec : c = c1 ++ c2) by (rewrite U1, U2; symmetry; apply firstn_skipn). split; [exact Ec|].
  intros spline dc v. rewrite Ec. unfold cf_present_value. rewrite !pv_terms_spec, filter_app.
  set (f := fun p => do df <- interpolate spline dc (payment_date p) None; Ok (df * amt p)%R).
  assert (MA : forall x y, mapM f (x ++ y) = do u <- mapM f x; do w <- mapM f y; Ok (u ++ w)).
  { induction x as [|p x IH]; intros y; cbn [app mapM]; [cbn; destruct (mapM f y); reflexivity|].
    destruct (f p); cbn [bind]; [|reflexivity]. rewrite IH. destruct (mapM f x); cbn [bind]; [|reflexivity]. destruct (mapM f y); reflexivity. }
  rewrite MA. destruct (mapM f (filter (live dc) c1)) as [u|]; cbn [bind].
  - destruct (mapM f (filter (live dc) c2)) as [w|]; cbn [bind]; split.
    + intros [= <-]. exists (rsum u), (rsum w). split; [reflexivity|]. split; [reflexivity|]. apply rsum_app.
    + intros (v1 & v2 & [= <-] & [= <-] & ->). apply (f_equal Ok). apply rsum_app.
    + discriminate.
    + intros (v1 & v2 & _ & X & _). discriminate.
  - split; [discriminate|]. intros (v1 & v2 & X & _). discriminate.
Qed.
Print Assumptions C103_split.

(** c[::-1] is c when no two payments share a date; otherwise it may reorder those. *)
Theorem C103_reversed : forall l ps, let c := cf_history l ps in NoDup (List.map payment_date c) ->
  cf_getitem_slice c (Slice None None (Some (-1))) = Ok c.
Proof.
  intros l ps c ND. destruct (C103_selected _ c (Slice None None (Some (-1)))) as [_ NZ].
  destruct (NZ ltac:(cbn; lia)) as (qs & r & E & F & M & _ & D).
  destruct (C103_cashflow l ps _ _ E) as (c' & Ec & P & _ & _ & Rv). fold c in Ec, Rv. rewrite Ec. apply (f_equal Ok).
  rewrite (Rv ltac:(cbn; lia) ND). destruct (slice_sublist c _ r E) as (_ & SD & _). specialize (SD ltac:(cbn; lia)).
  assert (Len : List.length (rev r) = List.length c).
  { rewrite rev_length. replace (List.length r) with (List.length qs) by (clear - F; induction F; cbn; congruence).
    assert (Pq : Permutation qs (List.map Z.of_nat (seq 0 (List.length c)))).
    { apply NoDup_Permutation.
      - specialize (D ltac:(cbn; lia)). clear - D. induction D as [|q qs S IH FA]; constructor; auto. rewrite Forall_forall in FA. intros I. specialize (FA q I). lia.
      - apply FinFun.Injective_map_NoDup; [intros x y; lia | apply seq_NoDup].
      - intros p. rewrite M. unfold selected. cbn. rewrite in_map_iff. split.
        + intros [L _]. exists (Z.to_nat p). split; [lia|]. apply in_seq. lia.
        + intros (i & <- & I). apply in_seq in I. split; [lia|]. exists (-(Z.of_nat i - (Z.of_nat (List.length c) - 1))). lia. }
    rewrite (Permutation_length Pq), map_length, seq_length. reflexivity. }
  clear - SD Len. induction SD as [|x la lb H IH|x la lb H IH]; auto.
  - exfalso. assert (Lh : (List.length la <= List.length lb)%nat) by (clear - H; induction H; cbn; lia). cbn in Len. lia.
  - cbn in Len. f_equal. apply IH. lia.
Qed.
Print Assumptions C103_reversed.
Theorem C103_reversed_refuted : exists l ps, cf_getitem_slice (cf_history l ps) (Slice None None (Some (-1))) <> Ok (cf_history l ps).
Proof. exists [Payment 5 (Some 1%R); Payment 5 None], []. vm_compute. discriminate. Qed.
Print Assumptions C103_reversed_refuted.

(** A slice of a linked collection of key rates, of any step, is the collection of the selected ones in date order, linked to each
    other; a slice that selects none raises ValueError. *)
Theorem C103_key_rates : forall h c s r, StronglySorted Z.lt (List.map (date_of h) c) -> py_slice c s = Ok r ->
  (r = [] -> exists h', kr_getitem_slice c s h = (h', Err ValueError)) /\
  (r <> [] -> exists h' c', kr_getitem_slice c s h = (h', Ok c') /\ c' = (if 0 <? step_of s then r else rev r) /\
     StronglySorted Z.lt (List.map (date_of h') c') /\ neighbours h' c' /\
     (forall a, ~ In a r -> h' a = h a)).
Proof.
  intros h c s r SS E. unfold kr_getitem_slice. rewrite E. split.
  - intros ->. destruct (new_collection_err [] h (or_introl eq_refl)) as (h' & X). eauto.
  - intros NE. destruct (slice_sublist c s r E) as (U & D & K).
    set (r' := if 0 <? step_of s then r else rev r).
    assert (Pr : Permutation r' r) by (unfold r'; destruct (0 <? step_of s); [auto | symmetry; apply Permutation_rev]).
    assert (Ir : StronglySorted Z.lt (List.map (date_of h) r')).
    { unfold r'. eapply sublist_sorted; [apply sublist_map | exact SS]. destruct (0 <? step_of s) eqn:Q; [apply U; lia | apply D; lia]. }
    assert (ND : NoDup (List.map (date_of h) r)).
    { apply (Permutation_NoDup (Permutation_map (date_of h) Pr)). apply sorted_lt_NoDup. exact Ir. }
    destruct (C22_construction h r NE ND) as (h' & c' & X & P & S' & N & O & Cc). exists h', c'. split; [exact X|].
    assert (Eq : c' = r').
    { apply (increasing_unique h); [etransitivity; [exact P | symmetry; exact Pr] | | exact Ir].
      unfold increasing, dates. rewrite (map_ext _ (date_of h')); [exact S'|]. intros a. symmetry. apply Cc. }
    split; [exact Eq|]. auto.
Qed.
Print Assumptions C103_key_rates.

(** ---- deletion ---- *)
Lemma del_from {A} (keep : nat -> bool) (l : list A) : forall j,
  sublist (List.map snd (filter (fun p => keep (fst p)) (combine (seq j (List.length l)) l))) l.
Proof.
  induction l as [|x l IH]; intros j; cbn; [constructor|]. destruct (keep j); cbn; [apply sub_keep | apply sub_skip]; apply IH.
Qed.
Lemma del_in {A} (keep : nat -> bool) (l : list A) x : forall j,
  In x (List.map snd (filter (fun p => keep (fst p)) (combine (seq j (List.length l)) l))) <-> exists k, nth_error l k = Some x /\ keep (j + k)%nat = true.
Proof.
  induction l as [|y l IH]; intros j; cbn [List.length seq combine filter List.map].
  - split; [intros [] | intros ([|k] & H & _); discriminate].
  - assert (G : In x (List.map snd (filter (fun p => keep (fst p)) (combine (seq (S j) (List.length l)) l))) <-> exists k, nth_error (y :: l) (S k) = Some x /\ keep (j + S k)%nat = true).
    { rewrite (IH (S j)). split; intros (k & H1 & H2); exists k; (split; [exact H1|]); [replace (j + S k)%nat with (S j + k)%nat by lia | replace (S j + k)%nat with (j + S k)%nat by lia]; exact H2. }
    cbn [fst]. destruct (keep j) eqn:Kj; cbn [List.map In snd].
    + rewrite G. split.
      * intros [->|(k & H)]; [exists 0%nat; rewrite Nat.add_0_r; auto | exists (S k); exact H].
      * intros ([|k] & H1 & H2); [left; cbn in H1; congruence | right; eauto].
    + rewrite G. split; [intros (k & H); exists (S k); exact H|]. intros ([|k] & H1 & H2); [rewrite Nat.add_0_r in H2; congruence | eauto].
Qed.

(** Deleting a slice keeps the key rates at the other positions, in order and linked to each other; deleting all of them raises
    ValueError after emptying the collection. *)
Theorem C103_delete : forall h c s, StronglySorted Z.lt (List.map (date_of h) c) -> step_of s <> 0 ->
  exists h' c' r, kr_del_slice c s h = (h', (c', r)) /\ sublist c' c /\
    (forall a, In a c' <-> exists k, nth_error c k = Some a /\ ~ selected (Z.of_nat (List.length c)) s (Z.of_nat k)) /\
    (c' <> [] -> r = Ok tt /\ StronglySorted Z.lt (List.map (date_of h') c') /\ neighbours h' c') /\ (c' = [] -> r = Err ValueError).
Proof.
  intros h c s SS K. unfold kr_del_slice, py_del_slice. set (n := Z.of_nat (List.length c)).
  destruct (positions_spec n s ltac:(unfold n; lia) K) as (ps & E & M & _). rewrite E. cbn [bind].
  set (c' := List.map snd _). 
  assert (SU : sublist c' c) by (apply (del_from (fun k => negb (existsb (Z.eqb (Z.of_nat k)) ps)))).
  assert (Mem : forall a, In a c' <-> exists k, nth_error c k = Some a /\ ~ selected n s (Z.of_nat k)).
  { intros a. unfold c'. rewrite (del_in (fun k => negb (existsb (Z.eqb (Z.of_nat k)) ps))). cbn [Nat.add].
    assert (B : forall k, negb (existsb (Z.eqb (Z.of_nat k)) ps) = true <-> ~ selected n s (Z.of_nat k)).
    { intros k. rewrite <- M, negb_true_iff. split.
      - intros X I. assert (existsb (Z.eqb (Z.of_nat k)) ps = true) by (apply existsb_exists; exists (Z.of_nat k); split; [exact I | apply Z.eqb_refl]). congruence.
      - intros X. destruct (existsb (Z.eqb (Z.of_nat k)) ps) eqn:Q; auto. apply existsb_exists in Q. destruct Q as (z & Iz & Ez). apply Z.eqb_eq in Ez. subst z. contradiction. }
    split; intros (k & H1 & H2); exists k; (split; [exact H1|]); apply B; exact H2. }
  assert (I : StronglySorted Z.lt (List.map (date_of h) c')) by (eapply sublist_sorted; [apply sublist_map, SU | exact SS]).
  unfold create_combined_adjustment_function. clearbody c'. destruct c' as [|x r].
  - exists h, [], (Err ValueError). split; [reflexivity|]. split; [exact SU|]. split; [exact Mem|]. split; [congruence | auto].
  - destruct (set_dates_ok (x :: r) h) as (h' & Es & L); [congruence|exact I|]. exists h', (x :: r), (Ok tt). rewrite Es. split; [reflexivity|].
    split; [exact SU|]. split; [exact Mem|]. split; [|discriminate]. intros _. split; [reflexivity|]. split; [|eapply linked_neighbours; eauto].
    pose proof (linked_cores _ _ _ _ L) as C. change (increasing h' (x :: r)). unfold increasing. rewrite <- (same_cores_dates h h' _ C). exact I.
Qed.
Print Assumptions C103_delete.

Example C103_case : 
  cf_getitem_slice (cf_history [Payment 5 (Some 1%R); Payment 3 None; Payment 9 None; Payment 7 (Some 2%R)] []) (Slice (Some (-1)) (Some (-9)) (Some (-2))) =
    Ok [Payment 5 (Some 1%R); Payment 9 None] /\
  (let '(h', r) := new_collection [2%nat; 0%nat; 1%nat] ex_heap in r = Ok [0%nat; 1%nat; 2%nat] /\
     snd (kr_getitem_slice [0%nat; 1%nat; 2%nat] (Slice None None (Some (-2))) h') = Ok [0%nat; 2%nat] /\
     fst (snd (kr_del_slice [0%nat; 1%nat; 2%nat] (Slice None None (Some (-2))) h')) = [1%nat]).
Proof. vm_compute. auto. Qed.
