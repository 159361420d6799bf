(** Property theorems C78, C79 (iterating with next(); inherited sequence methods of key rate collections). *)
From Verif Require Import Base PyDate DayCount PyList KeyRate KeyRateFacts Curve Cashflow Sequence P_KeyRate.
From Coq Require Import Permutation Sorted.
Open Scope Z_scope.

(** ---- C78: next() ---- *)
(** Calls a program makes on one collection, and what is observed of the ones to next(). *)
Inductive op :=
| ONext | OFor | OContains (x : addr) | OIndex (x : addr) | OCount (x : addr) | OGet (i : Z) | OAppend (x : addr) | OExtend (l : list addr)
| ODel (i : Z) | OPop (i : Z) | ORemove (x : addr) | OClear | OReverse | OSet (i : Z) (x : addr).
Inductive event := Yield (a : addr) | StopIteration | Other.

Definition run_op (o : op) (s : seq_obj) (h : heap) : heap * seq_obj * event :=
  let other {A} (r : heap * seq_obj * res A) := (fst (fst r), snd (fst r), Other) in
  match o with
  | ONext => let '(s, r) := sq_next s in (h, s, match r with Some a => Yield a | None => StopIteration end)
  | OFor | OContains _ | OIndex _ | OCount _ | OGet _ => (h, s, Other)
  | OAppend x => other (sq_append x s h)
  | OExtend l => other (sq_extend l s h)
  | ODel i => other (sq_delitem i s h)
  | OPop i => other (sq_pop i s h)
  | ORemove x => other (sq_remove x s h)
  | OClear => other (sq_clear s h)
  | OReverse => other (sq_reverse s h)
  | OSet i x => other (sq_setitem i x s h)
  end.
Fixpoint run (ops : list op) (s : seq_obj) (h : heap) : heap * seq_obj * list event :=
  match ops with
  | [] => (h, s, [])
  | o :: ops => let '(h, s, e) := run_op o s h in let '(h, s, es) := run ops s h in (h, s, e :: es)
  end.
(** How many members next() has returned since it last raised StopIteration. *)
Definition since (n : nat) (es : list event) : nat :=
  fold_left (fun n e => match e with Yield _ => S n | StopIteration => O | Other => n end) es n.

Lemma del_cursor i s h h' s' r : sq_delitem i s h = (h', s', r) -> sq_cursor s' = sq_cursor s.
Proof. unfold sq_delitem. destruct (delitem (sq_rates s) i h) as [h0 [c r0]]. intros E; injection E as <- <- <-. reflexivity. Qed.
Lemma pop_cursor i s h h' s' r : sq_pop i s h = (h', s', r) -> sq_cursor s' = sq_cursor s.
Proof.
  unfold sq_pop. destruct (sq_getitem s i); [|intros E; injection E as <- <- <-; reflexivity].
  destruct (sq_delitem i s h) as [[h0 s0] r0] eqn:D. intros E; injection E as <- <- <-. eapply del_cursor; eauto.
Qed.
Lemma set_cursor i x s h h' s' r : sq_setitem i x s h = (h', s', r) -> sq_cursor s' = sq_cursor s.
Proof. unfold sq_setitem. destruct (setitem (sq_rates s) i x h) as [h0 [c|e]]; intros E; injection E as <- <- <-; reflexivity. Qed.
Lemma clear_cursor n : forall s h h' s' r, clear_loop n s h = (h', s', r) -> sq_cursor s' = sq_cursor s.
Proof.
  induction n as [|n IH]; intros s h h' s' r; cbn [clear_loop]; [intros E; injection E as <- <- <-; reflexivity|].
  destruct (sq_pop (-1) s h) as [[h0 s0] [a|e]] eqn:P; pose proof (pop_cursor _ _ _ _ _ _ P) as C.
  - intros E. rewrite (IH _ _ _ _ _ E). exact C.
  - destruct e; intros E; injection E as <- <- <-; exact C.
Qed.
Lemma reverse_cursor k : forall i n s h h' s' r, reverse_loop k i n s h = (h', s', r) -> sq_cursor s' = sq_cursor s.
Proof.
  induction k as [|k IH]; intros i n s h h' s' r; cbn [reverse_loop]; [intros E; injection E as <- <- <-; reflexivity|].
  destruct (sq_getitem s (n - i - 1)) as [a|e1]; [|intros E; injection E as <- <- <-; reflexivity].
  destruct (sq_getitem s i) as [b|e2]; [|intros E; injection E as <- <- <-; reflexivity].
  destruct (sq_setitem i a s h) as [[h0 s0] [u|e]] eqn:S1; pose proof (set_cursor _ _ _ _ _ _ _ S1) as C; [|intros E; injection E as <- <- <-; exact C].
  destruct (sq_setitem (n - i - 1) b s0 h0) as [[h1 s1] [u1|e]] eqn:S2; pose proof (set_cursor _ _ _ _ _ _ _ S2) as C2; [|intros E; injection E as <- <- <-; congruence].
  intros E. rewrite (IH _ _ _ _ _ _ _ E). congruence.
Qed.
Lemma extend_same l : forall s h, fst (sq_extend l s h) = (h, s).
Proof. intros s h. destruct l; reflexivity. Qed.

Lemma run_op_cursor o s h h' s' e : run_op o s h = (h', s', e) -> sq_cursor s' = since (sq_cursor s) [e].
Proof.
  destruct o; cbn [run_op since fold_left]; try (intros E; injection E as <- <- <-; reflexivity).
  - unfold sq_next. destruct (nth_error (sq_rates s) (sq_cursor s)); intros E; injection E as <- <- <-; reflexivity.
  - intros E. injection E as <- <- <-. rewrite extend_same. reflexivity.
  - destruct (sq_delitem i s h) as [[h0 s0] r] eqn:D. intros E; injection E as <- <- <-. eapply del_cursor; eauto.
  - destruct (sq_pop i s h) as [[h0 s0] r] eqn:D. intros E; injection E as <- <- <-. eapply pop_cursor; eauto.
  - unfold sq_remove. destruct (sq_index h s x) as [i|]; [|intros E; injection E as <- <- <-; reflexivity].
    destruct (sq_delitem i s h) as [[h0 s0] r] eqn:D. intros E; injection E as <- <- <-. eapply del_cursor; eauto.
  - unfold sq_clear. destruct (clear_loop (S (sq_len s)) s h) as [[h0 s0] r] eqn:D. intros E; injection E as <- <- <-. eapply clear_cursor; eauto.
  - unfold sq_reverse. destruct (reverse_loop _ _ _ s h) as [[h0 s0] r] eqn:D. intros E; injection E as <- <- <-. eapply reverse_cursor; eauto.
  - destruct (sq_setitem i x s h) as [[h0 s0] r] eqn:D. intros E; injection E as <- <- <-. eapply set_cursor; eauto.
Qed.

Lemma run_cursor ops : forall s h h' s' es, run ops s h = (h', s', es) -> sq_cursor s' = since (sq_cursor s) es.
Proof.
  induction ops as [|o ops IH]; intros s h h' s' es; cbn [run]; [intros E; injection E as <- <- <-; reflexivity|].
  destruct (run_op o s h) as [[h0 s0] e] eqn:O. destruct (run ops s0 h0) as [[h1 s1] es1] eqn:R. intros E; injection E as <- <- <-.
  rewrite (IH _ _ _ _ _ R), (run_op_cursor _ _ _ _ _ _ O). reflexivity.
Qed.

(** After any history, next() returns the member whose index is the number of members returned since the last
    StopIteration, whatever was done to the collection in between; StopIteration when there is none. *)
Theorem C78_next_after_history : forall l h h0 s0 ops h1 s1 es, sq_new l h = (h0, Ok s0) -> run ops s0 h0 = (h1, s1, es) ->
  let '(s2, r) := sq_next s1 in r = nth_error (sq_iter s1) (since 0 es) /\ sq_iter s2 = sq_iter s1.
Proof.
  intros l h h0 s0 ops h1 s1 es N R. unfold sq_new, andthen in N. destruct (new_collection l h) as [h' [c|]]; [|discriminate]. injection N as <- <-.
  pose proof (run_cursor _ _ _ _ _ _ R) as C. cbn [sq_cursor] in C. unfold sq_next, sq_iter. rewrite C.
  destruct (nth_error (sq_rates s1) (since 0 es)); auto.
Qed.
Print Assumptions C78_next_after_history.

(** Calls that leave the members alone. *)
Definition quiet (o : op) : Prop :=
  match o with ONext | OFor | OContains _ | OIndex _ | OCount _ | OGet _ | OAppend _ | OExtend _ => True | _ => False end.
Definition is_next (o : op) : bool := match o with ONext => true | _ => false end.
Definition observed (es : list event) : list event := filter (fun e => match e with Other => false | _ => true end) es.

Lemma quiet_keeps o s h : quiet o -> is_next o = false -> run_op o s h = (h, s, Other).
Proof.
  intros Q N. destruct o; cbn in Q, N; try contradiction; try discriminate; try reflexivity.
  cbn [run_op]. rewrite extend_same. reflexivity.
Qed.

Lemma quiet_pass ops : forall s h k, Forall quiet ops -> (sq_cursor s + List.length (filter is_next ops) = S (sq_len s))%nat -> (sq_cursor s <= sq_len s)%nat ->
  k = sq_cursor s -> exists es, run ops s h = (h, Seq (sq_rates s) 0, es) /\ observed es = List.map Yield (skipn k (sq_rates s)) ++ [StopIteration].
Proof.
  induction ops as [|o ops IH]; intros s h k Q L Le ->; cbn [filter] in L; [cbn in L; lia|].
  apply Forall_cons_iff in Q. destruct Q as [Qo Q]. cbn [run]. destruct (is_next o) eqn:N.
  - destruct o; try discriminate. cbn [run_op]. unfold sq_next. cbn [List.length] in L.
    destruct (nth_error (sq_rates s) (sq_cursor s)) as [a|] eqn:A.
    + assert (Lt : (sq_cursor s < sq_len s)%nat) by (apply nth_error_Some; congruence).
      destruct (IH (Seq (sq_rates s) (S (sq_cursor s))) h (S (sq_cursor s)) Q) as (es & R & O); try (cbn in *; unfold sq_len in *; cbn; lia).
      rewrite R. eexists. split; [reflexivity|]. cbn [observed filter]. fold (observed es). rewrite O. cbn [sq_rates sq_cursor].
      apply nth_error_split in A. destruct A as (l1 & l2 & E & Ll). rewrite E, <- Ll.
      replace (skipn (S (List.length l1)) (l1 ++ a :: l2)) with l2 by (clear; induction l1; cbn; auto).
      replace (skipn (List.length l1) (l1 ++ a :: l2)) with (a :: l2) by (clear; induction l1; cbn; auto). reflexivity.
    + apply nth_error_None in A. assert (Lz : List.length (filter is_next ops) = 0%nat) by (unfold sq_len in *; lia).
      assert (G : forall s, run ops s h = (h, s, List.map (fun _ => Other) ops)).
      { clear IH L Le A. revert Lz. induction ops as [|o ops IH]; intros Lz s0; cbn [run]; [reflexivity|]. apply Forall_cons_iff in Q. destruct Q as [Qo' Q].
        cbn [filter] in Lz. destruct (is_next o) eqn:N'; [discriminate|]. rewrite (quiet_keeps o s0 h Qo' N'). rewrite (IH Q Lz). reflexivity. }
      rewrite G. eexists. split; [reflexivity|]. cbn [observed filter].
      replace (filter _ (List.map (fun _ => Other) ops)) with (@nil event) by (clear; induction ops; cbn; auto).
      rewrite skipn_all2 by lia. reflexivity.
  - rewrite (quiet_keeps o s h Qo N). destruct (IH s h (sq_cursor s) Q L Le eq_refl) as (es & R & O). rewrite R. eexists. split; [reflexivity|]. exact O.
Qed.

(** A pass: from a cursor at the start, [length + 1] calls of next(), however interleaved with calls that leave the members
    alone (among them for loops, and append and extend, which raise), return each member once in order, then
    StopIteration; the collection is left as it was, ready for another pass. *)
Theorem C78_full_pass : forall c h ops, Forall quiet ops -> List.length (filter is_next ops) = S (List.length c) ->
  exists es, run ops (Seq c 0) h = (h, Seq c 0, es) /\ observed es = List.map Yield c ++ [StopIteration].
Proof.
  intros c h ops Q L. destruct (quiet_pass ops (Seq c 0) h 0 Q) as (es & R & O); try (unfold sq_len; cbn; lia); auto. exists es. auto.
Qed.
Print Assumptions C78_full_pass.

Lemma remove_index i s n : py_index (sq_rates s) i = Ok n -> (n < List.length (sq_rates s))%nat.
Proof. unfold py_index. destruct ((0 <=? _) && _) eqn:E; [|discriminate]. intros Q; injection Q as <-. lia. Qed.
Lemma nth_remove {A} (l : list A) : forall i n, nth_error (remove_nth i l) n = if Nat.ltb n i then nth_error l n else nth_error l (S n).
Proof.
  induction l as [|x l IH]; intros [|i] n.
  - cbn. destruct n; reflexivity.
  - cbn [remove_nth]. destruct (Nat.ltb n (S i)); destruct n; reflexivity.
  - reflexivity.
  - cbn [remove_nth]. destruct n as [|n]; [reflexivity|]. cbn [nth_error]. rewrite IH. reflexivity.
Qed.

(** Deleting the member at index n during a pass: the member next() returns afterwards is the same as without the deletion
    when n lies ahead, but the one after it when n has been passed (or is next). *)
Theorem C78_delete_in_pass : forall s h i n h' s' r, py_index (sq_rates s) i = Ok n -> sq_delitem i s h = (h', s', r) ->
  snd (sq_next s') = nth_error (sq_iter s) (if Nat.ltb (sq_cursor s) n then sq_cursor s else S (sq_cursor s)).
Proof.
  intros s h i n h' s' r P D. unfold sq_delitem, delitem in D. rewrite P in D.
  destruct (create_combined_adjustment_function (remove_nth n (sq_rates s)) h) as [h0 r0]. injection D as <- <- <-.
  unfold sq_next, sq_iter. cbn [sq_rates sq_cursor]. rewrite nth_remove. destruct (Nat.ltb (sq_cursor s) n), (nth_error _ _); reflexivity.
Qed.
Print Assumptions C78_delete_in_pass.

Definition demo : heap := fun a => new_key_rate ACT365 (700000 + Z.of_nat a) None None.
Lemma triple {A B C} (p : A * B * C) b c : snd (fst p) = b -> snd p = c -> p = (fst (fst p), b, c).
Proof. destruct p as [[x y] z]. cbn. intros -> ->. reflexivity. Qed.
Lemma demo_new : sq_new [2; 0; 1]%nat demo = (fst (sq_new [2; 0; 1]%nat demo), Ok (Seq [0; 1; 2]%nat 0)).
Proof. assert (E : snd (sq_new [2; 0; 1]%nat demo) = Ok (Seq [0; 1; 2]%nat 0)) by (vm_compute; reflexivity). rewrite <- E. apply surjective_pairing. Qed.

(** So a member that is still in the collection may never be returned by a pass. *)
Theorem C78_each_member_refuted : exists l h h0 s0 h1 s1 es, sq_new l h = (h0, Ok s0) /\
  run [ONext; ODel 0; ONext; ONext] s0 h0 = (h1, s1, es) /\ observed es = [Yield 0%nat; Yield 2%nat; StopIteration] /\ In 1%nat (sq_iter s1).
Proof.
  exists [2; 0; 1]%nat, demo, (fst (sq_new [2; 0; 1]%nat demo)), (Seq [0; 1; 2]%nat 0),
    (fst (fst (run [ONext; ODel 0; ONext; ONext] (Seq [0; 1; 2]%nat 0) (fst (sq_new [2; 0; 1]%nat demo))))), (Seq [1; 2]%nat 0), [Yield 0%nat; Other; Yield 2%nat; StopIteration].
  split; [exact demo_new|]. split; [|split; [reflexivity|left; reflexivity]].
  apply triple; [vm_compute; reflexivity|vm_compute; reflexivity].
Qed.
Print Assumptions C78_each_member_refuted.

(** Portfolios: the same protocol; a change of the list of assets does not move the cursor. *)
Fixpoint pf_drain (n : nat) (p : pf_obj) : list entry * pf_obj :=
  match n with
  | O => ([], p)
  | S n => match pf_next p with (p', Some e) => let '(l, p2) := pf_drain n p' in (e :: l, p2) | (p', None) => ([], p') end
  end.
Lemma pf_drain_from a cash : forall n i, (List.length a - i < n)%nat -> (i <= List.length a)%nat ->
  pf_drain n (PfObj (Portfolio a cash) i) = (skipn i a, PfObj (Portfolio a cash) 0).
Proof.
  induction n as [|n IH]; intros i L Li; [lia|]. cbn [pf_drain]. unfold pf_next. cbn [po_portfolio po_cursor assets].
  destruct (nth_error a i) as [e|] eqn:E.
  - assert (i < List.length a)%nat by (apply nth_error_Some; congruence). rewrite IH by lia.
    apply nth_error_split in E. destruct E as (l1 & l2 & -> & <-). f_equal.
    replace (skipn (S (List.length l1)) (l1 ++ e :: l2)) with l2 by (clear; induction l1; cbn; auto).
    replace (skipn (List.length l1) (l1 ++ e :: l2)) with (e :: l2) by (clear; induction l1; cbn; auto). reflexivity.
  - apply nth_error_None in E. rewrite skipn_all2 by lia. reflexivity.
Qed.
Theorem C78_portfolio : forall l cash n, (List.length l < n)%nat ->
  pf_drain n (new_pf_obj l cash) = (l, new_pf_obj l cash) /\ pf_iter (new_pf_obj l cash) = l /\
  (forall p a, snd (pf_next (pf_set_assets a p)) = nth_error a (po_cursor p)).
Proof.
  intros l cash n L. split; [unfold new_pf_obj; rewrite pf_drain_from by lia; reflexivity|]. split; [reflexivity|].
  intros p a. unfold pf_next, pf_set_assets. cbn. destruct (nth_error a (po_cursor p)); reflexivity.
Qed.
Print Assumptions C78_portfolio.

(** ---- C79: inherited sequence methods ---- *)
(** What every collection built by the constructor satisfies (C22), and deletions keep. *)
Definition usable (h : heap) (s : seq_obj) : Prop :=
  StronglySorted Z.lt (List.map (date_of h) (sq_iter s)) /\ neighbours h (sq_iter s).

(** append always raises TypeError, extend does unless there is nothing to add; nothing changes. *)
Theorem C79_append : forall s h x l, sq_append x s h = (h, s, Err TypeError) /\
  sq_extend l s h = (h, s, match l with [] => Ok tt | _ => Err TypeError end).
Proof. intros s h x l. split; [reflexivity|]. destruct l; reflexivity. Qed.
Print Assumptions C79_append.

(** Membership, index and count look at day count convention and date. *)
Theorem C79_search : forall h s x, usable h s ->
  let match_at n := exists v, nth_error (sq_iter s) n = Some v /\ (v = x \/ date_of h v = date_of h x /\ kr_dcc (h v) = kr_dcc (h x)) in
  (sq_contains h s x = true <-> exists n, match_at n) /\
  (forall n, match_at n -> sq_index h s x = Ok (Z.of_nat n)) /\
  ((forall n, ~ match_at n) -> sq_index h s x = Err ValueError) /\
  sq_count h s x = (if sq_contains h s x then 1 else 0)%nat.
Proof.
  intros h s x [So _]. cbn zeta. unfold sq_contains, sq_index, sq_count, sq_iter in *. generalize dependent (sq_rates s). intros l So.
  assert (Sm : forall v, same h v x = true <-> v = x \/ date_of h v = date_of h x /\ kr_dcc (h v) = kr_dcc (h x)).
  { intros v. unfold same, kr_eqb, date_of. rewrite orb_true_iff, Nat.eqb_eq, andb_true_iff, Z.eqb_eq.
    assert (D : forall a b, dcc_eqb a b = true <-> a = b) by (intros [] []; cbn; split; congruence). rewrite D. intuition. }
  assert (Uniq : forall v w, In v l -> In w l -> same h v x = true -> same h w x = true -> date_of h v = date_of h w).
  { intros v w _ _ Hv Hw. apply Sm in Hv, Hw. destruct Hv as [-> | [-> _]], Hw as [-> | [-> _]]; reflexivity. }
  split; [|split; [|split]].
  - rewrite existsb_exists. split.
    + intros (v & I & M). apply In_nth_error in I. destruct I as (n & E). exists n, v. split; auto. apply Sm. exact M.
    + intros (n & v & E & M). exists v. split; [eapply nth_error_In; eauto|]. apply Sm. exact M.
  - intros n (v & E & M). apply Sm in M. assert (G : forall l i n, StronglySorted Z.lt (List.map (date_of h) l) -> (forall v w, In v l -> In w l -> same h v x = true -> same h w x = true -> date_of h v = date_of h w) -> nth_error l n = Some v -> index_from h l x i = Ok (i + Z.of_nat n)).
    { clear l So Uniq n E. induction l as [|w l IH]; intros i n So U E; [destruct n; discriminate|]. cbn [index_from].
      destruct n as [|n]; cbn in E.
      - injection E as ->. rewrite M. f_equal. lia.
      - cbn in So. apply StronglySorted_inv in So. destruct So as [So F]. destruct (same h w x) eqn:W.
        + exfalso. rewrite Forall_forall in F. pose proof (nth_error_In _ _ E) as I. specialize (F (date_of h v) (in_map _ _ _ I)).
          rewrite (U w v (or_introl eq_refl) (or_intror I) W M) in F. lia.
        + rewrite (IH (i + 1) n So); [f_equal; lia| |exact E]. intros a b Ia Ib. apply U; right; assumption. }
    rewrite (G l 0 n So Uniq E). reflexivity.
  - intros N. assert (G : forall v, In v l -> same h v x = false).
    { intros v I. destruct (same h v x) eqn:W; [|reflexivity]. exfalso. apply In_nth_error in I. destruct I as (n & E). apply (N n). exists v. split; auto. apply Sm. exact W. }
    clear -G. generalize 0. revert G. induction l as [|v l IH]; intros G i; [reflexivity|]. cbn [index_from]. rewrite (G v (or_introl eq_refl)). apply IH. intros w I. apply G. right. exact I.
  - clear Sm. induction l as [|v l IH]; [reflexivity|]. cbn in So. apply StronglySorted_inv in So. destruct So as [So F]. cbn [filter existsb].
    specialize (IH So (fun a b Ia Ib => Uniq a b (or_intror Ia) (or_intror Ib))). destruct (same h v x) eqn:V; cbn [orb List.length]; [|exact IH].
    rewrite IH. destruct (existsb (fun w => same h w x) l) eqn:X; [|reflexivity]. exfalso. apply existsb_exists in X. destruct X as (w & Iw & W).
    rewrite Forall_forall in F. specialize (F (date_of h w) (in_map _ _ _ Iw)). rewrite (Uniq v w (or_introl eq_refl) (or_intror Iw) V W) in F. lia.
Qed.
Print Assumptions C79_search.

Lemma getitem_at s i n a : py_index (sq_rates s) i = Ok n -> nth_error (sq_rates s) n = Some a -> sq_getitem s i = Ok a.
Proof. intros P E. unfold sq_getitem. rewrite P. cbn [bind]. rewrite E. reflexivity. Qed.

(** pop returns the member at the index and takes it out; what is left is sorted and linked.  Popping the only member
    empties the collection and raises ValueError; an index out of range raises IndexError and changes nothing. *)
Theorem C79_pop : forall h s i, usable h s ->
  match py_index (sq_iter s) i with
  | Err e => e = IndexError /\ sq_pop i s h = (h, s, Err IndexError)
  | Ok n => exists h' a, nth_error (sq_iter s) n = Some a /\
      let s' := Seq (remove_nth n (sq_iter s)) (sq_cursor s) in
      ((2 <= sq_len s)%nat -> sq_pop i s h = (h', s', Ok a) /\ usable h' s') /\
      (sq_len s = 1%nat -> sq_pop i s h = (h', s', Err ValueError) /\ sq_iter s' = [])
  end.
Proof.
  intros h s i [So Ne]. destruct (py_index (sq_iter s) i) as [n|e] eqn:P.
  - pose proof (remove_index i s n P) as L. destruct (nth_error (sq_rates s) n) as [a|] eqn:A; [|apply nth_error_None in A; lia].
    destruct (C24_delete h (sq_iter s) i n P So) as (h' & r & D & D2 & D1). exists h', a. split; [exact A|]. cbn zeta.
    unfold sq_pop. rewrite (getitem_at s i n a P A). unfold sq_delitem. change (sq_rates s) with (sq_iter s). rewrite D. split.
    + intros L2. destruct (D2 L2) as (-> & S' & N'). split; [reflexivity|]. split; assumption.
    + intros L1. destruct (D1 L1) as (-> & E). split; [reflexivity|exact E].
  - assert (e = IndexError) by (unfold py_index in P; destruct ((0 <=? _) && _) in P; congruence). subst e. split; [reflexivity|].
    unfold sq_pop, sq_getitem. change (sq_rates s) with (sq_iter s). rewrite P. reflexivity.
Qed.
Print Assumptions C79_pop.

(** remove deletes the member equal to x, if there is one; otherwise ValueError and nothing changes. *)
Theorem C79_remove : forall h s x, usable h s ->
  match sq_index h s x with
  | Err e => e = ValueError /\ sq_remove x s h = (h, s, Err ValueError)
  | Ok i => 0 <= i < Z.of_nat (sq_len s) /\
      exists h', let s' := Seq (remove_nth (Z.to_nat i) (sq_iter s)) (sq_cursor s) in
      ((2 <= sq_len s)%nat -> sq_remove x s h = (h', s', Ok tt) /\ usable h' s') /\
      (sq_len s = 1%nat -> sq_remove x s h = (h', s', Err ValueError) /\ sq_iter s' = [])
  end.
Proof.
  intros h s x [So Ne]. destruct (sq_index h s x) as [i|e] eqn:I.
  - assert (B : 0 <= i < Z.of_nat (sq_len s)).
    { unfold sq_index, sq_len in *. clear So Ne. assert (G : forall l k i, index_from h l x k = Ok i -> k <= i < k + Z.of_nat (List.length l)).
      { induction l as [|v l IH]; intros k j; cbn [index_from]; [discriminate|]. destruct (same h v x); [intros Q; injection Q as ->; cbn; lia|]. intros Q. apply IH in Q. cbn [List.length]. lia. }
      apply G in I. lia. }
    split; [exact B|]. assert (P : py_index (sq_iter s) i = Ok (Z.to_nat i)).
    { unfold py_index. unfold sq_len in B. destruct (i <? 0) eqn:Z; [lia|]. unfold sq_iter. destruct ((0 <=? i) && (i <? _)) eqn:Q; [reflexivity|lia]. }
    destruct (C24_delete h (sq_iter s) i _ P So) as (h' & r & D & D2 & D1). exists h'. cbn zeta. unfold sq_remove. rewrite I. unfold sq_delitem. change (sq_rates s) with (sq_iter s). rewrite D. split.
    + intros L2. destruct (D2 L2) as (-> & S' & N'). split; [reflexivity|]. split; assumption.
    + intros L1. destruct (D1 L1) as (-> & E). split; [reflexivity|exact E].
  - assert (e = ValueError). { unfold sq_index in I. revert I. generalize 0. induction (sq_rates s) as [|v l IH]; intros k; cbn [index_from]; [congruence|]. destruct (same h v x); [discriminate|]. apply IH. all: try assumption. }
    subst e. split; [reflexivity|]. unfold sq_remove. rewrite I. reflexivity.
Qed.
Print Assumptions C79_remove.

Lemma clear_spec n : forall s h, usable h s -> (List.length (sq_rates s) < n)%nat ->
  exists h', clear_loop n s h = (h', Seq [] (sq_cursor s), match sq_rates s with [] => Ok tt | _ => Err ValueError end).
Proof.
  induction n as [|n IH]; intros s h U L; [lia|]. cbn [clear_loop]. destruct s as [c k]. cbn [sq_rates sq_cursor] in *.
  pose proof (C79_pop h (Seq c k) (-1) U) as P. unfold sq_iter, sq_len in P. cbn [sq_rates sq_cursor] in P.
  destruct c as [|x c].
  - change (py_index [] (-1)) with (@Err nat IndexError) in P. destruct P as [_ P]. rewrite P. exists h. reflexivity.
  - assert (Ix : py_index (x :: c) (-1) = Ok (List.length c)).
    { unfold py_index. cbn [List.length]. destruct ((0 <=? _) && _) eqn:E; [f_equal|]; destruct (-1 <? 0) eqn:M; lia. }
    rewrite Ix in P. destruct P as (h1 & a & A & P2 & P1). destruct c as [|y c].
    + destruct (P1 eq_refl) as [E _]. rewrite E. cbn. exists h1. reflexivity.
    + destruct (P2 ltac:(cbn; lia)) as [E U']. rewrite E.
      assert (Lr : List.length (remove_nth (List.length (y :: c)) (x :: y :: c)) = List.length (y :: c)).
      { clear. generalize (y :: c). intros l. revert x. induction l as [|z l IH]; intros x; [reflexivity|]. cbn [List.length remove_nth]. f_equal. apply IH. }
      destruct (IH (Seq (remove_nth (List.length (y :: c)) (x :: y :: c)) k) h1 U') as (h2 & E2); [cbn [sq_rates]; rewrite Lr; cbn in L |- *; lia|].
      rewrite E2. exists h2. cbn [sq_rates sq_cursor]. destruct (remove_nth (List.length (y :: c)) (x :: y :: c)) eqn:R; [cbn in Lr; lia|reflexivity].
Qed.
(** clear empties the collection, and raises ValueError whenever there was anything to remove. *)
Theorem C79_clear : forall h s, usable h s -> exists h',
  sq_clear s h = (h', Seq [] (sq_cursor s), if sq_bool s then Err ValueError else Ok tt).
Proof.
  intros h s U. destruct (clear_spec (S (sq_len s)) s h U) as (h' & E); [unfold sq_len; lia|]. exists h'. unfold sq_clear. rewrite E. unfold sq_bool. destruct (sq_rates s); reflexivity.
Qed.
Print Assumptions C79_clear.

(** reverse raises TypeError on two or more key rates, and changes nothing. *)
Theorem C79_reverse : forall h s, usable h s -> sq_reverse s h = (h, s, if (sq_len s <? 2)%nat then Ok tt else Err TypeError) /\ sq_reversed s = rev (sq_iter s).
Proof.
  intros h s [So Ne]. split; [|reflexivity]. unfold sq_reverse. destruct s as [c k]. unfold sq_len, sq_iter in *. cbn [sq_rates] in *.
  destruct c as [|x [|y c]]; [reflexivity|reflexivity|]. replace (Nat.div (List.length (x :: y :: c)) 2) with (S (Nat.div (List.length c) 2)).
  2:{ change (List.length (x :: y :: c)) with (2 + List.length c)%nat. replace (2 + List.length c)%nat with (1 * 2 + List.length c)%nat by lia. rewrite Nat.div_add_l by lia. reflexivity. }
  cbn [reverse_loop]. set (n := Z.of_nat _).
  assert (P0 : py_index (x :: y :: c) 0 = Ok 0%nat). { unfold py_index. cbn [List.length]. destruct ((0 <=? _) && _) eqn:E; [reflexivity|]. destruct (0 <? 0) eqn:Z; lia. }
  assert (Pl : py_index (x :: y :: c) (n - 0 - 1) = Ok (S (List.length c))).
  { unfold py_index, n. cbn [List.length]. destruct (_ <? 0) eqn:Z; [lia|]. destruct ((0 <=? _) && _) eqn:E; [f_equal; lia|lia]. }
  destruct (nth_error (x :: y :: c) (S (List.length c))) as [a|] eqn:A; [|apply nth_error_None in A; cbn in A; lia].
  rewrite (getitem_at (Seq (x :: y :: c) k) _ _ a Pl A). rewrite (getitem_at (Seq (x :: y :: c) k) 0 0%nat x P0 eq_refl).
  destruct (Ne 0%nat x eq_refl) as [Pr _]. unfold sq_setitem, stored, setitem. cbn [sq_rates sq_cursor]. rewrite P0. cbn [nth_error]. rewrite Pr. reflexivity.
Qed.
Print Assumptions C79_reverse.

(** Assignment c[i] = x: the member is replaced exactly when the dates around it, as it records them, are strictly around x's
    date; otherwise nothing changes and an exception is raised. *)
Definition fits (h : heap) (s : seq_obj) (i : Z) (x : addr) (n : nat) : Prop :=
  py_index (sq_rates s) i = Ok n /\ exists a p f, nth_error (sq_rates s) n = Some a /\ kr_prior (h a) = Some p /\ kr_next (h a) = Some f /\ p < kr_date (h x) < f.
Theorem C79_setitem : forall h s i x h' s' r, sq_setitem i x s h = (h', s', r) ->
  (forall n, fits h s i x n -> s' = Seq (replace_nth n x (sq_rates s)) (sq_cursor s)) /\
  ((forall n, ~ fits h s i x n) -> h' = h /\ s' = s /\ exists e, r = Err e).
Proof.
  intros h s i x h' s' r E. unfold sq_setitem, stored, setitem in E. split.
  - intros n (I & a & p & f & N & P & F & B). rewrite I, N, P, F in E. rewrite (proj2 (Z.ltb_lt _ _) (proj1 B)), (proj2 (Z.ltb_lt _ _) (proj2 B)) in E. cbn [andb] in E.
    destruct (andthen _ _ h) as [h0 [c|e]] in E; injection E as <- <- <-; reflexivity.
  - intros No. destruct s as [c k]. cbn [sq_rates sq_cursor] in *. destruct (py_index c i) as [n|e] eqn:I; [|unfold raise in E; injection E as <- <- <-; eauto].
    destruct (nth_error c n) as [a|] eqn:N; [|injection E as <- <- <-; eauto]. destruct (kr_prior (h a)) as [p|] eqn:P; [|injection E as <- <- <-; eauto].
    destruct (kr_next (h a)) as [f|] eqn:F.
    + destruct (Z.ltb_spec p (kr_date (h x))) as [B1|]; cbn [andb] in E; [|injection E as <- <- <-; eauto]. destruct (Z.ltb_spec (kr_date (h x)) f) as [B2|]; [|injection E as <- <- <-; eauto].
      exfalso. apply (No n). split; [exact I|]. exists a, p, f. repeat split; assumption.
    + destruct (p <? kr_date (h x)); injection E as <- <- <-; eauto.
Qed.
Print Assumptions C79_setitem.

(** Every collection the constructor returns meets the hypothesis. *)
Theorem C79_constructed : forall l h h' s, sq_new l h = (h', Ok s) -> usable h' s /\ sq_cursor s = 0%nat /\ Permutation (sq_iter s) l.
Proof.
  intros l h h' s E. unfold sq_new, andthen in E. destruct (new_collection l h) as [h1 [c|]] eqn:N; [|discriminate]. injection E as <- <-.
  destruct (linkable_dec (sort_kr h l) h) as [[NE I]|B].
  - destruct (set_dates_ok (sort_kr h l) h NE I) as (h2 & E2 & L2).
    assert (I2 : KeyRateFacts.increasing h2 (sort_kr h l)) by (unfold KeyRateFacts.increasing in *; rewrite <- (same_cores_dates h h2 _ (linked_cores _ _ _ _ L2)); exact I).
    destruct (set_dates_ok (sort_kr h l) h2 NE I2) as (h3 & E3 & L3).
    unfold new_collection in N. rewrite (andthen_ok _ _ _ _ _ E2) in N. unfold create_combined_adjustment_function in N. rewrite (andthen_ok _ _ _ _ _ E3) in N. injection N as <- <-.
    split; [|split; [reflexivity|apply sort_perm]]. split; [|eapply linked_neighbours; exact L3].
    unfold KeyRateFacts.increasing in I2. rewrite (same_cores_dates h2 h3 _ (linked_cores _ _ _ _ L3)) in I2. exact I2.
  - destruct (set_dates_err (sort_kr h l) h B) as (h2 & E2). unfold new_collection, andthen in N. rewrite E2 in N. discriminate.
Qed.
Print Assumptions C79_constructed.

Example C79_case : exists h s, usable h s /\ sq_len s = 3%nat /\ sq_iter s = [0; 1; 2]%nat.
Proof. exists (fst (sq_new [2; 0; 1]%nat demo)), (Seq [0; 1; 2]%nat 0). split; [apply (C79_constructed _ _ _ _ demo_new)|]. auto. Qed.
Example C78_case : exists l h h0 s0, sq_new l h = (h0, Ok s0) /\ sq_len s0 = 3%nat.
Proof. exists [2; 0; 1]%nat, demo, (fst (sq_new [2; 0; 1]%nat demo)), (Seq [0; 1; 2]%nat 0). split; [exact demo_new|reflexivity]. Qed.
