(** Facts about KeyRate.v. *)
From Verif Require Import Base PyDate PyDateFacts DayCount DayCountFacts LoopFacts KeyRate.
From Coq Require Import Sorting.Sorted Permutation.
Open Scope Z_scope.
Ltac Zify.zify_post_hook ::= Z.div_mod_to_equations.

(** ---- heap ---- *)
Lemma upd_same h a k : upd h a k a = k.
Proof. unfold upd. rewrite Nat.eqb_refl. reflexivity. Qed.
Lemma upd_other h a k b : b <> a -> upd h a k b = h b.
Proof. intros N. unfold upd. apply Nat.eqb_neq in N. rewrite N. reflexivity. Qed.

(** A key rate with new neighbours and a closure made for them. *)
Definition relinked (k : kr) (p n : option date) : kr := KR (kr_dcc k) (kr_date k) p n (kr_bump k) (p, kr_date k, n).

Definition dates (h : heap) (l : list addr) : list date := List.map (fun a => kr_date (h a)) l.
Definition increasing (h : heap) (l : list addr) : Prop := StronglySorted Z.lt (dates h l).
Definition odate (h : heap) (o : option addr) : option date := option_map (fun a => kr_date (h a)) o.

(** the three immutable attributes *)
Definition same_core (j k : kr) : Prop := kr_dcc j = kr_dcc k /\ kr_date j = kr_date k /\ kr_bump j = kr_bump k.
Definition same_cores (h h' : heap) : Prop := forall a, same_core (h a) (h' a).

Lemma same_cores_dates h h' l : same_cores h h' -> dates h l = dates h' l.
Proof. intros S. apply map_ext. intros a. apply S. Qed.

Lemma increasing_NoDup h l : increasing h l -> NoDup l.
Proof.
  unfold increasing, dates. induction l as [|a l IH]; cbn; intros S; [constructor|].
  inversion S as [|? ? S' F]; subst. constructor; auto. intros I. rewrite Forall_forall in F.
  specialize (F (kr_date (h a)) (in_map (fun a => kr_date (h a)) l a I)). lia.
Qed.

Definition prev_of (prev : option addr) (l1 : list addr) : option addr :=
  match rev l1 with [] => prev | a :: _ => Some a end.

Lemma prev_of_cons prev a l1 : prev_of prev (a :: l1) = prev_of (Some a) l1.
Proof.
  unfold prev_of. cbn [rev]. destruct (rev l1) as [|b r] eqn:E; reflexivity.
Qed.

(** [linked h h' prev l]: h' is h with each member of l re-linked to its neighbours in l. *)
Definition linked (h h' : heap) (prev : option addr) (l : list addr) : Prop :=
  (forall a, ~ In a l -> h' a = h a) /\
  (forall l1 a l2, l = l1 ++ a :: l2 -> h' a = relinked (h a) (odate h (prev_of prev l1)) (odate h (hd_error l2))).

Lemma andthen_ok {A B} (p : prog A) (f : A -> prog B) h h' a : p h = (h', Ok a) -> andthen p f h = f a h'.
Proof. intros E. unfold andthen. rewrite E. reflexivity. Qed.

Lemma link_step prev a rest h h1 : link_one prev a rest h = (h1, Ok tt) -> link_loop prev (a :: rest) h = link_loop (Some a) rest h1.
Proof. intros E. cbn [link_loop]. rewrite (andthen_ok _ _ _ _ _ E). reflexivity. Qed.
Lemma link_fail prev a rest h h1 e : link_one prev a rest h = (h1, Err e) -> link_loop prev (a :: rest) h = (h1, Err e).
Proof. intros E. cbn [link_loop]. unfold andthen. rewrite E. reflexivity. Qed.

Definition head_ok (h : heap) (prev : option addr) (l : list addr) : Prop :=
  match prev, l with
  | Some p, a :: _ => kr_date (h p) < kr_date (h a)
  | None, [_] => False
  | _, _ => True
  end.


Lemma link_one_ok prev a rest h : head_ok h prev (a :: rest) -> head_ok h (Some a) rest -> ~ (prev = None /\ rest = []) ->
  (forall p, prev = Some p -> p <> a) -> (forall b r, rest = b :: r -> b <> a) ->
  exists h1, link_one prev a rest h = (h1, Ok tt) /\ h1 a = relinked (h a) (odate h prev) (odate h (hd_error rest)) /\
             forall b, b <> a -> h1 b = h b.
Proof.
  intros H1 H2 N P R. unfold link_one. destruct prev as [p|], rest as [|b r]; cbn in H1, H2.
  - specialize (P p eq_refl). unfold andthen, update, date_at. cbn. rewrite ?upd_same, ?(upd_other _ _ _ p P). cbn.
    replace (kr_date (h a) <=? kr_date (h p)) with false by lia. rewrite upd_same.
    eexists. split; [reflexivity|]. split; [rewrite upd_same; reflexivity|]. intros b Hb. rewrite !upd_other by auto. reflexivity.
  - specialize (P p eq_refl). specialize (R b r eq_refl). unfold andthen, update, date_at. cbn.
    replace (kr_date (h a) <=? kr_date (h p)) with false by lia. cbn. rewrite ?upd_same, ?(upd_other _ _ _ b R). cbn.
    replace (kr_date (h b) <=? kr_date (h a)) with false by lia. rewrite upd_same.
    eexists. split; [reflexivity|]. split; [rewrite upd_same; reflexivity|]. intros x Hb. rewrite !upd_other by auto. reflexivity.
  - exfalso. apply N. auto.
  - specialize (R b r eq_refl). unfold andthen, update, date_at. cbn. rewrite ?upd_same, ?(upd_other _ _ _ b R). cbn.
    replace (kr_date (h b) <=? kr_date (h a)) with false by lia. rewrite upd_same.
    eexists. split; [reflexivity|]. split; [rewrite upd_same; reflexivity|]. intros x Hb. rewrite !upd_other by auto. reflexivity.
Qed.

Lemma odate_ext h h1 o : (forall a, o = Some a -> h1 a = h a) -> odate h1 o = odate h o.
Proof. destruct o as [a|]; cbn; auto. intros E. rewrite E; auto. Qed.

Lemma link_loop_ok l : forall prev h, head_ok h prev l -> increasing h l -> (forall p, prev = Some p -> ~ In p l) ->
  exists h', link_loop prev l h = (h', Ok tt) /\ linked h h' prev l.
Proof.
  induction l as [|a rest IH]; intros prev h HO I NP.
  - exists h. split; [reflexivity|]. split; auto. intros [|? ?] ? ?; discriminate.
  - pose proof (increasing_NoDup _ _ I) as ND. inversion ND as [|? ? NA ND']; subst.
    unfold increasing, dates in I. cbn in I. inversion I as [|? ? I' F]; subst. rewrite Forall_forall in F.
    assert (HR : head_ok h (Some a) rest).
    { destruct rest as [|b r]; cbn; auto. apply F. left. reflexivity. }
    destruct (link_one_ok prev a rest h HO HR) as (h1 & E & Ha & Hb).
    { intros [-> ->]. exact HO. }
    { intros p -> ->. apply (NP a eq_refl). left; auto. }
    { intros b r -> ->. apply NA. left; auto. }
    assert (K : forall b, In b rest -> h1 b = h b) by (intros b B; apply Hb; intros ->; auto).
    assert (KD : forall b, kr_date (h1 b) = kr_date (h b)).
    { intros b. destruct (Nat.eq_dec b a) as [->|]; [rewrite Ha; reflexivity|rewrite Hb; auto]. }
    destruct (IH (Some a) h1) as (h' & E' & L1 & L2).
    { destruct rest as [|b r]; cbn in *; auto. rewrite !KD. exact HR. }
    { unfold increasing, dates. rewrite (map_ext _ (fun a => kr_date (h a))); auto. }
    { intros p [= <-]. exact NA. }
    exists h'. split.
    + rewrite (link_step _ _ _ _ _ E). exact E'.
    + split.
      * intros b B. rewrite L1 by (intros Q; apply B; right; auto). apply Hb. intros ->. apply B. left; auto.
      * intros l1 x l2 EQ. destruct l1 as [|y l1].
        -- cbn in EQ. injection EQ as <- <-. rewrite L1 by auto. exact Ha.
        -- cbn in EQ. injection EQ as <- ->. rewrite prev_of_cons.
           rewrite (L2 l1 x l2 eq_refl). rewrite K by (apply in_elt).
           assert (OD : forall o, odate h1 o = odate h o) by (intros [z|]; cbn; [rewrite KD|]; reflexivity).
           rewrite !OD. reflexivity.
Qed.

(** If the dates are not strictly increasing, linking raises ValueError (leaving the members before re-linked). *)
Lemma link_one_err prev a b r h : head_ok h prev (a :: b :: r) -> kr_date (h b) <= kr_date (h a) ->
  exists h1, link_one prev a (b :: r) h = (h1, Err ValueError).
Proof.
  intros H1 H2. unfold link_one. destruct prev as [p|]; cbn in H1.
  - unfold andthen, update, date_at. cbn. replace (kr_date (h a) <=? kr_date (h p)) with false by lia. cbn.
    rewrite upd_same. cbn. unfold upd at 1. destruct (Nat.eqb b a); cbn.
    + replace (kr_date (h a) <=? kr_date (h a)) with true by lia. eexists; reflexivity.
    + replace (kr_date (h b) <=? kr_date (h a)) with true by lia. eexists; reflexivity.
  - unfold andthen, update, date_at. cbn. rewrite upd_same. cbn. unfold upd at 1. destruct (Nat.eqb b a); cbn.
    + replace (kr_date (h a) <=? kr_date (h a)) with true by lia. eexists; reflexivity.
    + replace (kr_date (h b) <=? kr_date (h a)) with true by lia. eexists; reflexivity.
Qed.

Lemma link_loop_err l : forall prev h, head_ok h prev l -> ~ increasing h l -> (forall p, prev = Some p -> ~ In p l) ->
  exists h', link_loop prev l h = (h', Err ValueError).
Proof.
  induction l as [|a rest IH]; intros prev h HO NI NP.
  - exfalso. apply NI. constructor.
  - destruct rest as [|b r].
    { exfalso. apply NI. unfold increasing. cbn. repeat constructor. }
    destruct (Z_lt_ge_dec (kr_date (h a)) (kr_date (h b))) as [LT|GE].
    + assert (NAB : b <> a) by (intros ->; lia).
      destruct (link_one_ok prev a (b :: r) h HO LT) as (h1 & E & Ha & Hb); try (intros [? ?]; discriminate).
      { intros p -> ->. apply (NP a eq_refl). left; auto. }
      { intros ? ? [= <- <-]. auto. }
      assert (KD : forall b, kr_date (h1 b) = kr_date (h b)).
      { intros c. destruct (Nat.eq_dec c a) as [->|]; [rewrite Ha; reflexivity|rewrite Hb; auto]. }
      destruct (in_dec Nat.eq_dec a (b :: r)) as [IA|IA].
      * (* the member occurs again later: dates cannot increase; use the suffix *)
        rewrite (link_step _ _ _ _ _ E).
        assert (G : forall l prev h, (exists x, In x l /\ kr_date (h x) <= match prev with Some p => kr_date (h p) | None => 0 end) ->
                   (exists p, prev = Some p) ->
                   exists h', link_loop prev l h = (h', Err ValueError)).
        { clear. intros l. induction l as [|a l IH]; intros prev h (x & I & L) (p & ->); [destruct I|].
          destruct (Z_lt_ge_dec (kr_date (h p)) (kr_date (h a))) as [LT|GE].
          - destruct l as [|b r].
            { destruct I as [->|[]]. lia. }
            destruct (Z_lt_ge_dec (kr_date (h a)) (kr_date (h b))) as [LT2|GE2].
            + assert (b <> a) by (intros ->; lia).
              destruct (link_one_ok (Some p) a (b :: r) h LT LT2) as (h1 & E & Ha & Hb); try (intros [? ?]; discriminate).
              { intros q [= <-] ->. lia. } { intros ? ? [= <- <-]; auto. }
              assert (KD : forall b, kr_date (h1 b) = kr_date (h b)).
              { intros c. destruct (Nat.eq_dec c a) as [->|]; [rewrite Ha; reflexivity|rewrite Hb; auto]. }
              rewrite (link_step _ _ _ _ _ E). apply IH; [|eauto]. exists x. rewrite !KD.
              split; [destruct I as [->|I]; [lia|auto]|lia].
            + destruct (link_one_err (Some p) a b r h LT ltac:(lia)) as (h1 & E).
              exists h1. apply (link_fail _ _ _ _ _ _ E).
          - cbn [link_loop]. unfold link_one, andthen, update, date_at. destruct l as [|b r]; cbn.
            + rewrite upd_same. unfold upd at 1. cbn. destruct (Nat.eqb p a); cbn.
              * replace (kr_date (h a) <=? kr_date (h a)) with true by lia. eexists; reflexivity.
              * replace (kr_date (h a) <=? kr_date (h p)) with true by lia. eexists; reflexivity.
            + replace (kr_date (h a) <=? kr_date (h p)) with true by lia. eexists; reflexivity. }
        apply G; [|eauto]. exists a. split; auto. lia.
      * rewrite (link_step _ _ _ _ _ E). apply IH.
        -- cbn. rewrite !KD. exact LT.
        -- intros C. apply NI. unfold increasing, dates in *. rewrite (map_ext _ (fun a => kr_date (h a))) in C by auto.
           change (StronglySorted Z.lt (kr_date (h a) :: List.map (fun a => kr_date (h a)) (b :: r))). constructor; auto.
           cbn in *. inversion C as [|? ? C' F]; subst. constructor; auto. rewrite Forall_forall in *. intros z Hz. specialize (F z Hz). lia.
        -- intros p [= <-]. exact IA.
    + destruct (link_one_err prev a b r h HO ltac:(lia)) as (h1 & E).
      exists h1. apply (link_fail _ _ _ _ _ _ E).
Qed.

Lemma linked_cores h h' prev l : linked h h' prev l -> same_cores h h'.
Proof.
  intros [L1 L2] a. destruct (in_dec Nat.eq_dec a l) as [I|I].
  - apply in_split in I. destruct I as (l1 & l2 & E). rewrite (L2 l1 a l2 E). repeat split.
  - rewrite L1 by auto. repeat split.
Qed.

Lemma same_cores_odate h h' o : same_cores h h' -> odate h o = odate h' o.
Proof. intros S. destruct o as [a|]; cbn; auto. f_equal. apply S. Qed.

Lemma linked_twice h h1 h2 prev l : linked h h1 prev l -> linked h1 h2 prev l -> linked h h2 prev l.
Proof.
  intros L L'. pose proof (linked_cores _ _ _ _ L) as C. destruct L as [L1 L2], L' as [L1' L2']. split.
  - intros a N. rewrite L1', L1; auto.
  - intros l1 a l2 E. rewrite (L2' l1 a l2 E). rewrite <- !(same_cores_odate h h1) by auto.
    rewrite (L2 l1 a l2 E). reflexivity.
Qed.

Lemma set_dates_ok l h : l <> [] -> increasing h l -> exists h', set_dates_in_collection l h = (h', Ok tt) /\ linked h h' None l.
Proof.
  intros NE I. destruct l as [|a [|b r]]; [congruence| |].
  - cbn. unfold andthen, update. cbn. eexists. split; [reflexivity|]. split.
    + intros x N. rewrite !upd_other; auto; intros ->; apply N; left; auto.
    + intros l1 x l2 E. destruct l1 as [|y [|? ?]]; cbn in E; try discriminate. injection E as <- <-. cbn.
      rewrite !upd_same. reflexivity.
  - change (set_dates_in_collection (a :: b :: r)) with (link_loop None (a :: b :: r)).
    apply link_loop_ok; cbn; auto. intros; discriminate.
Qed.

Lemma set_dates_err l h : ~ (l <> [] /\ increasing h l) -> exists h', set_dates_in_collection l h = (h', Err ValueError).
Proof.
  intros N. destruct l as [|a [|b r]].
  - eexists; reflexivity.
  - exfalso. apply N. split; [congruence|]. repeat constructor.
  - change (set_dates_in_collection (a :: b :: r)) with (link_loop None (a :: b :: r)).
    apply link_loop_err; cbn; auto; try (intros; discriminate). intros I. apply N. split; [congruence|auto].
Qed.

(** ---- sorting ---- *)
Lemma insert_perm h a l : Permutation (insert_kr h a l) (a :: l).
Proof.
  induction l as [|b l IH]; cbn; auto. destruct (kr_date (h b) <=? kr_date (h a)); auto.
  rewrite IH. apply perm_swap.
Qed.

Lemma sort_perm_aux h l : forall acc, Permutation (fold_left (fun acc a => insert_kr h a acc) l acc) (acc ++ l).
Proof.
  induction l as [|a l IH]; intros acc; cbn; [rewrite app_nil_r; auto|].
  rewrite IH. rewrite insert_perm. cbn. apply Permutation_middle.
Qed.
Lemma sort_perm h l : Permutation (sort_kr h l) l.
Proof. unfold sort_kr. rewrite sort_perm_aux. reflexivity. Qed.

Lemma insert_sorted h a l : StronglySorted Z.le (dates h l) -> StronglySorted Z.le (dates h (insert_kr h a l)).
Proof.
  induction l as [|b l IH]; cbn [insert_kr]; intros S.
  - repeat constructor.
  - cbn in S. inversion S as [|? ? S' F]; subst. destruct (kr_date (h b) <=? kr_date (h a)) eqn:E.
    + cbn. constructor; [apply IH; auto|]. rewrite Forall_forall in *. intros x I.
      apply (Permutation_in x (Permutation_map (fun a => kr_date (h a)) (insert_perm h a l))) in I. cbn in I.
      destruct I as [<-|I]; [lia|apply F, I].
    + cbn. constructor; auto. constructor; [lia|]. rewrite Forall_forall in *. intros x I. specialize (F x I). lia.
Qed.

Lemma sort_sorted h l : StronglySorted Z.le (dates h (sort_kr h l)).
Proof.
  unfold sort_kr. assert (G : forall l acc, StronglySorted Z.le (dates h acc) -> StronglySorted Z.le (dates h (fold_left (fun acc a => insert_kr h a acc) l acc))).
  { intros l'. induction l' as [|a l' IH]; cbn; auto. intros acc S. apply IH, insert_sorted, S. }
  apply G. constructor.
Qed.

Lemma sorted_le_lt (l : list Z) : StronglySorted Z.le l -> NoDup l -> StronglySorted Z.lt l.
Proof.
  induction 1 as [|a l S IH F]; intros ND; [constructor|]. inversion ND; subst. constructor; auto.
  rewrite Forall_forall in *. intros x I. specialize (F x I). assert (x <> a) by (intros ->; auto). lia.
Qed.
Lemma sorted_lt_NoDup (l : list Z) : StronglySorted Z.lt l -> NoDup l.
Proof.
  induction 1 as [|a l S IH F]; constructor; auto. intros I. rewrite Forall_forall in F. specialize (F a I). lia.
Qed.

Lemma sort_increasing h l : (increasing h (sort_kr h l) <-> NoDup (dates h l)).
Proof.
  unfold increasing. split; intros H.
  - apply sorted_lt_NoDup in H. eapply Permutation_NoDup; [|exact H]. apply Permutation_map, sort_perm.
  - apply sorted_le_lt; [apply sort_sorted|]. eapply Permutation_NoDup; [|exact H]. apply Permutation_map. symmetry. apply sort_perm.
Qed.

Lemma increasing_unique h l l' : Permutation l l' -> increasing h l -> increasing h l' -> l = l'.
Proof.
  revert l'. induction l as [|a l IH]; intros l' P I I'.
  - apply Permutation_nil in P. auto.
  - destruct l' as [|b l']; [symmetry in P; apply Permutation_nil in P; discriminate|].
    unfold increasing, dates in *. cbn in I, I'. inversion I as [|? ? J F]; inversion I' as [|? ? J' F']; subst.
    rewrite Forall_forall in F, F'.
    assert (a = b).
    { destruct (Nat.eq_dec a b) as [|NE]; auto. exfalso.
      assert (In a l') by (destruct (Permutation_in a P (or_introl eq_refl)) as [E|?]; [congruence|auto]).
      assert (In b l) by (symmetry in P; destruct (Permutation_in b P (or_introl eq_refl)) as [E|?]; [congruence|auto]).
      specialize (F _ (in_map (fun a => kr_date (h a)) _ _ H0)). specialize (F' _ (in_map (fun a => kr_date (h a)) _ _ H)). lia. }
    subst b. f_equal. apply IH; auto. eapply Permutation_cons_inv; eauto.
Qed.

Lemma new_collection_ok l h : l <> [] -> NoDup (dates h l) ->
  exists h' c, new_collection l h = (h', Ok c) /\ Permutation c l /\ increasing h c /\ linked h h' None c.
Proof.
  intros NE ND. pose proof (sort_perm h l) as P.
  assert (I : increasing h (sort_kr h l)) by (apply sort_increasing; auto).
  assert (NE' : sort_kr h l <> []) by (intros E; rewrite E in P; apply Permutation_nil in P; congruence).
  destruct (set_dates_ok _ h NE' I) as (h1 & E1 & L1).
  assert (I1 : increasing h1 (sort_kr h l)).
  { unfold increasing. rewrite <- (same_cores_dates h h1); auto. eapply linked_cores; eauto. }
  destruct (set_dates_ok _ h1 NE' I1) as (h2 & E2 & L2).
  exists h2, (sort_kr h l). repeat split; auto; try (apply (linked_twice h h1 h2 None); auto).
  unfold new_collection. cbv zeta. rewrite (andthen_ok _ _ _ _ _ E1). unfold create_combined_adjustment_function.
  rewrite (andthen_ok _ _ _ _ _ E2). reflexivity.
Qed.

Lemma new_collection_err l h : l = [] \/ ~ NoDup (dates h l) -> exists h', new_collection l h = (h', Err ValueError).
Proof.
  intros D. destruct (set_dates_err (sort_kr h l) h) as (h' & E).
  - intros [NE I]. destruct D as [->|N]; [apply NE; reflexivity|]. apply N. apply sort_increasing; auto.
  - exists h'. unfold new_collection. cbv zeta. unfold andthen at 1. rewrite E. reflexivity.
Qed.

(** ---- shapes ---- *)
(** A day count with a strictly increasing clock: accruals are a positive multiple of clock differences. *)
Definition has_clock (c : dcc) (ok : date -> Prop) (phi : date -> Q) (k : Q) : Prop :=
  (0 < k)%Q /\ (forall s e, ok s -> s <= e -> ok e -> exists q, acc c s e = Ok q /\ (q == k * (phi e - phi s))%Q) /\
  (forall s e, s < e -> (phi s < phi e)%Q).

Lemma ramp c ok phi k s d m num den : has_clock c ok phi k -> s < m -> ok s -> ok m ->
  acc c s m = Ok den -> acc c s d = Ok num -> ok d -> s <= d ->
  exists r, qdiv num den = Ok r /\ (r == (phi d - phi s) / (phi m - phi s))%Q.
Proof.
  intros (K & A & M) L Os Om Ed En Od L'. destruct (A s m Os ltac:(lia) Om) as (q & E & V). rewrite Ed in E. injection E as <-.
  destruct (A s d Os L' Od) as (q' & E & V'). rewrite En in E. injection E as <-.
  specialize (M s m L). unfold qdiv. assert (NZ : ~ (phi m - phi s == 0)%Q) by (intros C; lra).
  assert (ND : ~ (den == 0)%Q).
  { rewrite V. intros C. apply Qmult_integral in C. destruct C; [lra|auto]. }
  destruct (Qeq_bool den 0) eqn:B; [apply Qeq_bool_iff in B; contradiction|].
  exists (num / den)%Q. split; auto. rewrite V, V'. field. split; auto. intros C. lra.
Qed.

Lemma ramp_down c ok phi k d m f num den : has_clock c ok phi k -> m < f -> ok f -> ok m ->
  acc c m f = Ok den -> acc c d f = Ok num -> ok d -> d <= f ->
  exists r, qdiv num den = Ok r /\ (r == (phi f - phi d) / (phi f - phi m))%Q.
Proof.
  intros (K & A & M) L Of Om Ed En Od L'. destruct (A m f Om ltac:(lia) Of) as (q & E & V). rewrite Ed in E. injection E as <-.
  destruct (A d f Od L' Of) as (q' & E & V'). rewrite En in E. injection E as <-.
  specialize (M m f L). unfold qdiv. assert (NZ : ~ (phi f - phi m == 0)%Q) by (intros C; lra).
  assert (ND : ~ (den == 0)%Q).
  { rewrite V. intros C. apply Qmult_integral in C. destruct C; [lra|auto]. }
  destruct (Qeq_bool den 0) eqn:B; [apply Qeq_bool_iff in B; contradiction|].
  exists (num / den)%Q. split; auto. rewrite V, V'. field. split; auto. intros C. lra.
Qed.

(** Value of the tent, as a rational function of the clock. *)
Definition tent_up (phi : date -> Q) (p m d : date) : Q :=
  if d <=? p then 0 else if d <=? m then ((phi d - phi p) / (phi m - phi p))%Q else 1.
Definition tent_down (phi : date -> Q) (m f d : date) : Q :=
  if d <=? m then 1 else if f <=? d then 0 else ((phi f - phi d) / (phi f - phi m))%Q.

Definition ok_between (ok : date -> Prop) := forall a b d, ok a -> ok b -> a <= d <= b -> ok d.

Lemma adj_first c ok phi k bump m f d : has_clock c ok phi k -> ok_between ok -> ok m -> ok f -> m < f ->
  exists v, adjustment c bump (None, m, Some f) d = Ok v /\ (v == bump * tent_down phi m f d)%Q.
Proof.
  intros H OB Om Of L. cbn [adjustment]. unfold tent_down. destruct (d <=? m) eqn:E1; [eexists; split; [reflexivity|ring]|].
  destruct (f <=? d) eqn:E2; [eexists; split; [reflexivity|ring]|].
  assert (Od : ok d) by (apply (OB m f); auto; lia).
  destruct H as (K & A & M). destruct (A d f Od ltac:(lia) Of) as (num & En & _). destruct (A m f Om ltac:(lia) Of) as (den & Ed & _).
  rewrite En, Ed. cbn [bind]. destruct (ramp_down c ok phi k d m f num den) as (r & Er & Vr); auto; try lia; [repeat split; auto|].
  rewrite Er. cbn [bind]. eexists. split; [reflexivity|]. rewrite Vr. reflexivity.
Qed.

Lemma adj_last c ok phi k bump p m d : has_clock c ok phi k -> ok_between ok -> ok m -> ok p -> p < m ->
  exists v, adjustment c bump (Some p, m, None) d = Ok v /\ (v == bump * tent_up phi p m d)%Q.
Proof.
  intros H OB Om Op L. cbn [adjustment]. unfold tent_up. destruct (m <=? d) eqn:E1.
  { eexists; split; [reflexivity|]. replace (d <=? p) with false by lia. destruct (d <=? m) eqn:E; [|ring].
    assert (d = m) as -> by lia. destruct H as (_ & _ & M). specialize (M p m L). field. intros C. lra. }
  destruct (d <=? p) eqn:E2; [eexists; split; [reflexivity|ring]|]. replace (d <=? m) with true by lia.
  assert (Od : ok d) by (apply (OB p m); auto; lia).
  destruct H as (K & A & M). destruct (A p d Op ltac:(lia) Od) as (num & En & _). destruct (A p m Op ltac:(lia) Om) as (den & Ed & _).
  rewrite En, Ed. cbn [bind]. destruct (ramp c ok phi k p d m num den) as (r & Er & Vr); auto; try lia; [repeat split; auto|].
  rewrite Er. cbn [bind]. eexists. split; [reflexivity|]. rewrite Vr. ring.
Qed.

Lemma adj_mid c ok phi k bump p m f d : has_clock c ok phi k -> ok_between ok -> ok m -> ok p -> ok f -> p < m -> m < f ->
  exists v, adjustment c bump (Some p, m, Some f) d = Ok v /\ (v == bump * (tent_up phi p m d * tent_down phi m f d))%Q.
Proof.
  intros H OB Om Op Of L L'. cbn [adjustment]. unfold tent_up, tent_down. destruct ((f <=? d) || (d <=? p)) eqn:E1.
  { eexists; split; [reflexivity|]. destruct (d <=? p) eqn:E2; [ring|]. replace (d <=? m) with false by lia.
    replace (f <=? d) with true by lia. ring. }
  replace (d <=? p) with false by lia. replace (f <=? d) with false by lia. destruct (d <=? m) eqn:E2.
  - assert (Od : ok d) by (apply (OB p m); auto; lia).
    destruct H as (K & A & M). destruct (A p d Op ltac:(lia) Od) as (num & En & _). destruct (A p m Op ltac:(lia) Om) as (den & Ed & _).
    rewrite En, Ed. cbn [bind]. destruct (ramp c ok phi k p d m num den) as (r & Er & Vr); auto; try lia; [repeat split; auto|].
    rewrite Er. cbn [bind]. eexists. split; [reflexivity|]. rewrite Vr. ring.
  - assert (Od : ok d) by (apply (OB m f); auto; lia).
    destruct H as (K & A & M). destruct (A d f Od ltac:(lia) Of) as (num & En & _). destruct (A m f Om ltac:(lia) Of) as (den & Ed & _).
    rewrite En, Ed. cbn [bind]. destruct (ramp_down c ok phi k d m f num den) as (r & Er & Vr); auto; try lia; [repeat split; auto|].
    rewrite Er. cbn [bind]. eexists. split; [reflexivity|]. rewrite Vr. ring.
Qed.

Lemma Qdiv_unit a b : (0 < b)%Q -> (0 <= a)%Q -> (a <= b)%Q -> (0 <= a / b /\ a / b <= 1)%Q.
Proof.
  intros B A AB. split.
  - apply Qle_shift_div_l; auto. lra.
  - apply Qle_shift_div_r; auto. lra.
Qed.

Lemma tent_up_bounds phi p m d : (forall s e, s < e -> (phi s < phi e)%Q) -> p < m -> (0 <= tent_up phi p m d /\ tent_up phi p m d <= 1)%Q.
Proof.
  intros M L. unfold tent_up. destruct (d <=? p) eqn:E; [lra|]. destruct (d <=? m) eqn:E2; [|lra].
  pose proof (M p m L). pose proof (M p d ltac:(lia)). apply Qdiv_unit; try lra.
  destruct (Z.eq_dec d m) as [->|]; [lra|]. pose proof (M d m ltac:(lia)). lra.
Qed.
Lemma tent_down_bounds phi m f d : (forall s e, s < e -> (phi s < phi e)%Q) -> m < f -> (0 <= tent_down phi m f d /\ tent_down phi m f d <= 1)%Q.
Proof.
  intros M L. unfold tent_down. destruct (d <=? m) eqn:E; [lra|]. destruct (f <=? d) eqn:E2; [lra|].
  pose proof (M m f L). pose proof (M d f ltac:(lia)). pose proof (M m d ltac:(lia)). apply Qdiv_unit; lra.
Qed.

(** Two neighbouring ramps are complementary. *)
Lemma tents_complement phi m f d : (forall s e, s < e -> (phi s < phi e)%Q) -> m < f -> (tent_down phi m f d + tent_up phi m f d == 1)%Q.
Proof.
  intros M L. unfold tent_down, tent_up. pose proof (M m f L). destruct (d <=? m) eqn:E; [ring|]. destruct (f <=? d) eqn:E2.
  - destruct (d <=? f) eqn:E3; [|ring]. assert (d = f) as -> by lia. field. intros C. lra.
  - replace (d <=? f) with true by lia. field. intros C. lra.
Qed.

(** ---- the two families of clocks ---- *)
Lemma act_clock c N : act_basis c = Some N -> has_clock c (fun _ => True) inject_Z (/ N).
Proof.
  intros B. pose proof (act_basis_pos _ _ B) as P. repeat split.
  - apply Qinv_lt_0_compat; auto.
  - intros s e _ L _. destruct (act_exact c N s e B L) as (q & E & V). exists q. split; auto. rewrite V, inj_sub. field. intros C. lra.
  - intros s e L. rewrite <- Zlt_Qlt. auto.
Qed.
Lemma actact_clock : has_clock ACTACT (fun d => date_ok d /\ 2 <= year d) aa_clock 1.
Proof.
  repeat split; try (apply aa_clock_lt; auto).
  intros s e [Os Ys] L [Oe _]. destruct (compute_actact s e Os Oe Ys L) as (q & E & V). exists q. split; auto. rewrite V. ring.
Qed.

Lemma clocks_ok : ok_between (fun _ => True) /\ ok_between (fun d => date_ok d /\ 2 <= year d).
Proof.
  split; intros a b d; auto. intros [A1 A2] [B1 B2] [L1 L2]. split; [unfold date_ok in *; lia|]. pose proof (year_mono a d L1). lia.
Qed.

(** ---- the sum ---- *)
Lemma fold_Qplus l : forall a, (fold_left Qplus l a == a + fold_left Qplus l 0)%Q.
Proof.
  induction l as [|x l IH]; intros a; cbn [fold_left]; [ring|]. rewrite IH. rewrite (IH (0 + x)%Q). ring.
Qed.

(** members of a linked list: closures are those of their neighbours *)
Fixpoint chained (h : heap) (prev : option date) (l : list addr) : Prop :=
  match l with
  | [] => True
  | a :: r => kr_fun (h a) = (prev, kr_date (h a), odate h (hd_error r)) /\ chained h (Some (kr_date (h a))) r
  end.

Lemma linked_chained h h' prev l : linked h h' prev l -> chained h' (odate h' prev) l.
Proof.
  intros L. pose proof (linked_cores _ _ _ _ L) as C. destruct L as [_ L2].
  assert (G : forall l2 l1, l = l1 ++ l2 -> chained h' (odate h' (prev_of prev l1)) l2).
  { induction l2 as [|a l2 IH]; intros l1 E; cbn; auto. split.
    - rewrite (L2 l1 a l2 E). cbn. rewrite !(same_cores_odate h h') by auto. reflexivity.
    - specialize (IH (l1 ++ [a])). rewrite <- app_assoc in IH. specialize (IH E).
      unfold prev_of in IH. rewrite rev_app_distr in IH. exact IH. }
  apply (G l []). reflexivity.
Qed.

Section Sum.
  Context (ok : date -> Prop) (phi : date -> Q) (OB : ok_between ok).
  Context (h : heap) (bump : Q).
  Definition good (a : addr) : Prop :=
    (exists k, has_clock (kr_dcc (h a)) ok phi k) /\ ok (kr_date (h a)) /\ (kr_bump (h a) == bump)%Q.

  Lemma sum_suffix d : forall r a p, chained h (Some p) (a :: r) -> increasing h (a :: r) -> Forall good (a :: r) ->
    ok p -> p < kr_date (h a) ->
    exists vs, mapM (fun a => kr_call (h a) d) (a :: r) = Ok vs /\
      (fold_left Qplus vs 0 == bump * tent_up phi p (kr_date (h a)) d)%Q.
  Proof.
    induction r as [|b r IH]; intros a p CH I G Op L.
    - inversion G as [|? ? ((k & HC) & Oa & Ba) _]; subst. destruct CH as [F _]. cbn [hd_error odate option_map] in F.
      destruct (adj_last (kr_dcc (h a)) ok phi k (kr_bump (h a)) p (kr_date (h a)) d HC OB Oa Op L) as (v & E & V).
      exists [v]. cbn [mapM]. unfold kr_call at 1. rewrite F, E. cbn [bind]. split; [reflexivity|]. cbn. rewrite V, Ba. ring.
    - inversion G as [|? ? ((k & HC) & Oa & Ba) G']; subst. pose proof G' as G2. inversion G2 as [|? ? (_ & Ob & _) _]; subst.
      destruct CH as [F CH]. cbn [hd_error odate option_map] in F.
      unfold increasing in I. cbn in I. inversion I as [|? ? I' FA]; subst.
      assert (Lab : kr_date (h a) < kr_date (h b)) by (rewrite Forall_forall in FA; apply FA; left; reflexivity).
      destruct (IH b (kr_date (h a)) CH I' G' Oa Lab) as (vs & E2 & V2).
      destruct (adj_mid (kr_dcc (h a)) ok phi k (kr_bump (h a)) p (kr_date (h a)) (kr_date (h b)) d HC OB Oa Op Ob L Lab) as (v & E & V).
      exists (v :: vs). split.
      { change (mapM (fun a => kr_call (h a) d) (a :: b :: r)) with (do x <- kr_call (h a) d; do bs <- mapM (fun a => kr_call (h a) d) (b :: r); Ok (x :: bs)).
        unfold kr_call at 1. rewrite F, E. cbn [bind]. rewrite E2. reflexivity. }
      cbn [fold_left]. rewrite fold_Qplus, V2, V, Ba. destruct HC as (_ & _ & M).
      pose proof (tents_complement phi (kr_date (h a)) (kr_date (h b)) d M Lab) as TC.
      unfold tent_up at 3. unfold tent_up at 1. destruct (d <=? p) eqn:E3.
      + unfold tent_up. replace (d <=? kr_date (h a)) with true by lia. ring.
      + destruct (d <=? kr_date (h a)) eqn:E4.
        * unfold tent_up, tent_down. rewrite E4. ring.
        * setoid_replace (0 + bump * (1 * tent_down phi (kr_date (h a)) (kr_date (h b)) d) + bump * tent_up phi (kr_date (h a)) (kr_date (h b)) d)%Q
            with (bump * (tent_down phi (kr_date (h a)) (kr_date (h b)) d + tent_up phi (kr_date (h a)) (kr_date (h b)) d))%Q by ring.
          rewrite TC. reflexivity.
  Qed.

  Lemma sum_parallel d a b r : chained h None (a :: b :: r) -> increasing h (a :: b :: r) -> Forall good (a :: b :: r) ->
    exists v, coll_call h (a :: b :: r) d = Ok v /\ (v == bump)%Q.
  Proof.
    intros CH I G. inversion G as [|? ? ((k & HC) & Oa & Ba) G']; subst. pose proof G' as G2. inversion G2 as [|? ? (_ & Ob & _) _]; subst.
    destruct CH as [F CH]. cbn [hd_error odate option_map] in F.
    unfold increasing in I. cbn in I. inversion I as [|? ? I' FA]; subst.
    assert (Lab : kr_date (h a) < kr_date (h b)) by (rewrite Forall_forall in FA; apply FA; left; reflexivity).
    destruct (sum_suffix d r b (kr_date (h a)) CH I' G' Oa Lab) as (vs & E2 & V2).
    destruct (adj_first (kr_dcc (h a)) ok phi k (kr_bump (h a)) (kr_date (h a)) (kr_date (h b)) d HC OB Oa Ob Lab) as (v & E & V).
    unfold coll_call.
    change (mapM (fun a => kr_call (h a) d) (a :: b :: r)) with (do x <- kr_call (h a) d; do bs <- mapM (fun a => kr_call (h a) d) (b :: r); Ok (x :: bs)).
    unfold kr_call at 1. rewrite F, E. cbn [bind]. rewrite E2. cbn [bind].
    eexists. split; [reflexivity|]. cbn [fold_left]. rewrite fold_Qplus, V2, V, Ba. destruct HC as (_ & _ & M).
    setoid_replace (0 + bump * tent_down phi (kr_date (h a)) (kr_date (h b)) d + bump * tent_up phi (kr_date (h a)) (kr_date (h b)) d)%Q
      with (bump * (tent_down phi (kr_date (h a)) (kr_date (h b)) d + tent_up phi (kr_date (h a)) (kr_date (h b)) d))%Q by ring.
    rewrite (tents_complement phi _ _ d M Lab). ring.
  Qed.
End Sum.

Lemma increasing_dec h l : {increasing h l} + {~ increasing h l}.
Proof.
  unfold increasing. induction (dates h l) as [|a m IH]; [left; constructor|]. destruct IH as [S|N].
  - destruct (Forall_dec (fun x => a < x) (fun x => Z_lt_dec a x) m) as [F|F]; [left; constructor; auto|right; intros C; inversion C; auto].
  - right. intros C. inversion C; auto.
Qed.
Lemma linkable_dec l h : (l <> [] /\ increasing h l) \/ ~ (l <> [] /\ increasing h l).
Proof. destruct l as [|a r]; [right; intros [N _]; congruence|]. destruct (increasing_dec h (a :: r)); [left; split; [congruence|auto]|right; tauto]. Qed.
