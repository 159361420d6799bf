(** Property theorems C89 (comparing key rates) and C90 (operators of key rate collections). *)
From Verif Require Import Base PyDate DayCount PyList KeyRate KeyRateFacts P_KeyRate KeyRateCmp.
From Coq Require Import Sorting.Sorted Permutation.
Open Scope Z_scope.

(** ---- C89 ---- *)
(** The four comparisons are those of the dates: any two key rates are comparable, and they agree with each other. *)
Theorem C89_order : forall i j k,
  (kr_le i j = true <-> kr_date i <= kr_date j) /\ (kr_lt i j = true <-> kr_date i < kr_date j) /\
  kr_ge i j = kr_le j i /\ kr_gt i j = kr_lt j i /\ kr_lt i j = negb (kr_ge i j) /\ kr_gt i j = negb (kr_le i j) /\
  (kr_le i j = true \/ kr_le j i = true) /\ (kr_le i j = true -> kr_le j k = true -> kr_le i k = true) /\ kr_lt i i = false /\
  (kr_lt i j = true -> kr_lt j k = true -> kr_lt i k = true).
Proof. intros i j k. unfold kr_le, kr_lt, kr_ge, kr_gt. repeat split; lia. Qed.
Print Assumptions C89_order.

(** Equality is an equivalence, equal key rates have equal hashes and are neither smaller nor larger. *)
Theorem C89_equality : forall hash_pair i j k,
  (kr_eqb i j = true <-> kr_dcc i = kr_dcc j /\ kr_date i = kr_date j) /\ kr_ne i j = negb (kr_eqb i j) /\
  kr_eqb i i = true /\ kr_eqb i j = kr_eqb j i /\ (kr_eqb i j = true -> kr_eqb j k = true -> kr_eqb i k = true) /\
  (kr_eqb i j = true -> kr_hash hash_pair i = kr_hash hash_pair j /\ kr_lt i j = false /\ kr_gt i j = false /\ kr_le i j = true /\ kr_ge i j = true).
Proof.
  intros hp i j k. assert (E : forall a b, kr_eqb a b = true <-> kr_dcc a = kr_dcc b /\ kr_date a = kr_date b) by (intros; apply kr_eqb_iff).
  split; [apply E|]. split; [reflexivity|]. split; [apply E; auto|]. split; [apply Bool.eq_true_iff_eq; rewrite !E; intuition|].
  split; [rewrite !E; intros [A B] [C D]; split; congruence|]. intros Q. apply E in Q. destruct Q as [A B]. unfold kr_hash, kr_lt, kr_gt, kr_le, kr_ge. rewrite A, B. repeat split; lia.
Qed.
Print Assumptions C89_equality.

(** No history of setting neighbours or bumps changes how a key rate compares or hashes (it stays where it is in a set or a sorted list). *)
Theorem C89_history : forall hash_pair c d p n c' d' p' n' ops ops', (forall x, p = Some x -> x < d) -> (forall x, n = Some x -> d < x) -> (forall x, p' = Some x -> x < d') -> (forall x, n' = Some x -> d' < x) ->
  let k := kr_run (new_key_rate c d p n) ops in let k' := kr_run (new_key_rate c' d' p' n') ops' in
  (kr_eqb k k' = true <-> c = c' /\ d = d') /\ (kr_le k k' = true <-> d <= d') /\ (kr_lt k k' = true <-> d < d') /\ kr_hash hash_pair k = hash_pair (c, d).
Proof.
  intros hp c d p n c' d' p' n' ops ops' P N P' N' k k'. destruct (C23_guards c d p n ops P N) as (_ & D & C & _). destruct (C23_guards c' d' p' n' ops' P' N') as (_ & D' & C' & _). fold k in D, C. fold k' in D', C'.
  rewrite kr_eqb_iff. unfold kr_le, kr_lt, kr_hash. rewrite D, D', C, C'. split; [reflexivity|]. split; [lia|]. split; [lia|reflexivity].
Qed.
Print Assumptions C89_history.

(** Two key rates each at most the other need not be equal: the convention counts for equality only. *)
Theorem C89_antisymmetry_refuted : exists i j, kr_le i j = true /\ kr_le j i = true /\ kr_eqb i j = false.
Proof. exists (new_key_rate ACT360 738551 None None), (new_key_rate ACT365 738551 None None). repeat split; reflexivity. Qed.
Print Assumptions C89_antisymmetry_refuted.

Example C89_case : let k := kr_run (new_key_rate ACT360 738551 None None) [SetPrior (Some 738550); SetBump (1 # 2)] in let k' := kr_run (new_key_rate ACT360 738551 None None) [SetNext (Some 738560); SetPrior (Some 738600)] in
  kr_eqb k k' = true /\ kr_prior k <> kr_prior k' /\ kr_lt k (new_key_rate ACT365 738552 None None) = true.
Proof. vm_compute. repeat split; discriminate. Qed.

(** ---- C90 ---- *)
(** With room for one nested +, two collections add up to their union, and any other sum with a collection on one side raises TypeError and changes
    nothing: __radd__ always gives up. *)
Theorem C90_plus : forall n order l r h, (0 < n)%nat ->
  (forall a b, l = OColl a -> r = OColl b -> py_plus n order l r h = add_collections order a b h) /\
  ((forall a b, ~ (l = OColl a /\ r = OColl b)) -> py_plus n order l r h = (h, Err TypeError)).
Proof.
  intros n order l r h Ln. destruct n as [|n]; [lia|]. split.
  - intros a b -> ->. cbn [py_plus dunder_add coll_add]. unfold andthen, ret. destruct (add_collections order a b h) as [h' [c|e]]; reflexivity.
  - intros N. destruct l as [a|a|a|]; destruct r as [b|b|b|]; try (exfalso; apply (N a b); auto; fail); try (exfalso; eapply N; split; reflexivity); try reflexivity; destruct n; reflexivity.
Qed.
Print Assumptions C90_plus.

(** So the builtin sum of one or more collections raises TypeError, however it should have added up. *)
Theorem C90_sum_refuted : forall n order c l h, (0 < n)%nat -> sum_collections n order (c :: l) h = (h, Err TypeError).
Proof.
  intros n order c l h Ln. unfold sum_collections. cbn [fold_left]. assert (E : (let* s := ret OOther in let* t := py_plus n order s (OColl c) in ret (OColl t)) h = (h, Err TypeError)).
  { unfold andthen, ret. destruct (C90_plus n order OOther (OColl c) h Ln) as [_ T]. rewrite T by (intros a b [H _]; discriminate). reflexivity. }
  revert E. generalize (let* s := ret OOther in let* t := py_plus n order s (OColl c) in ret (OColl t)) as p. induction l as [|d l IH]; intros p E; [exact E|]. cbn [fold_left]. apply IH. unfold andthen at 1. rewrite E. reflexivity.
Qed.
Print Assumptions C90_sum_refuted.

Lemma dedup_one h a : forall c seen, (forall i j x y, nth_error c i = Some x -> nth_error c j = Some y -> kr_eqb (h x) (h y) = true -> i = j) ->
  (forall s x, In s seen -> In x c -> kr_eqb (h s) (h x) = false) ->
  dedup h seen (c ++ [a]) = c ++ (if existsb (fun b => kr_eqb (h b) (h a)) (rev c ++ seen) then [] else [a]).
Proof.
  induction c as [|x c IH]; intros seen U Sn.
  - cbn. destruct (existsb _ seen); reflexivity.
  - cbn [app dedup rev]. rewrite (proj1 (Bool.not_true_iff_false (existsb (fun b => kr_eqb (h b) (h x)) seen))).
    2:{ intros E. apply existsb_exists in E. destruct E as (s & Is & E). rewrite (Sn s x Is ltac:(left; reflexivity)) in E. discriminate. }
    rewrite IH; [rewrite <- app_assoc; reflexivity| |].
    + intros i j y z Hi Hj E. assert (S i = S j) by (apply (U (S i) (S j) y z); auto). lia.
    + intros s y [<- | Is] Iy; [|apply Sn; [exact Is|right; exact Iy]]. destruct (kr_eqb (h x) (h y)) eqn:E; [|reflexivity]. apply In_nth_error in Iy. destruct Iy as (i & Iy). specialize (U O (S i) x y eq_refl Iy E). lia.
Qed.

(** += with a single key rate: the members afterwards, in some order, are the old ones and the key rate unless an equal one was there; linking them may raise
    ValueError.  With an object that cannot be iterated over it raises TypeError and changes nothing. *)
Theorem C90_iadd : forall order c a h, any_order order -> (forall i j x y, nth_error c i = Some x -> nth_error c j = Some y -> kr_eqb (h x) (h y) = true -> i = j) ->
  (exists h' c' r, iadd_op order c (ORate a) h = (h', (c', r)) /\ (r = Ok tt \/ r = Err ValueError) /\
     ((exists b, In b c /\ kr_eqb (h b) (h a) = true) -> Permutation c' c) /\ ((forall b, In b c -> kr_eqb (h b) (h a) = false) -> Permutation c' (c ++ [a]))) /\
  iadd_op order c OOther h = (h, (c, Err TypeError)).
Proof.
  intros order c a h OR U. split; [|reflexivity]. destruct (C24_iadd order h c (kr_iter a) OR) as (h' & r & E & R). exists h', (order (set_union h c [a])), r. split; [exact E|]. split; [destruct R as [(_ & _ & R)|R]; auto|].
  unfold set_union. rewrite (dedup_one h a c [] U) by (intros s x []). rewrite app_nil_r. split.
  - intros (b & I & Q). rewrite (proj2 (existsb_exists (fun b => kr_eqb (h b) (h a)) (rev c))) by (exists b; split; [apply -> in_rev; exact I|exact Q]). rewrite app_nil_r. apply OR.
  - intros N. rewrite (proj1 (Bool.not_true_iff_false _)); [apply OR|]. intros X. apply existsb_exists in X. destruct X as (b & I & Q). apply in_rev in I. rewrite (N b I) in Q. discriminate.
Qed.
Print Assumptions C90_iadd.

Lemma sorted_nth (l : list Z) : StronglySorted Z.lt l -> forall i j x y, (i < j)%nat -> nth_error l i = Some x -> nth_error l j = Some y -> x < y.
Proof.
  induction l as [|z l IH]; intros Sd i j x y L I J; [destruct i; discriminate|]. apply StronglySorted_inv in Sd. destruct Sd as [Sd F]. destruct j as [|j]; [lia|]. cbn in J.
  destruct i as [|i]; [cbn in I; injection I as <-; rewrite Forall_forall in F; apply F; apply (nth_error_In _ _ J)|]. apply (IH Sd i j x y); [lia|exact I|exact J].
Qed.

(** binary search finds the first member with a later date *)
Lemma bisect_spec h l x : StronglySorted Z.lt (List.map (date_of h) l) -> forall n lo hi, (hi <= List.length l)%nat -> (lo <= hi)%nat -> (hi - lo < n)%nat ->
  (forall i a, (i < lo)%nat -> nth_error l i = Some a -> date_of h a <= date_of h x) -> (forall i a, (hi <= i)%nat -> nth_error l i = Some a -> date_of h x < date_of h a) ->
  let r := bisect_right n h l x lo hi in (r <= List.length l)%nat /\ (forall i a, (i < r)%nat -> nth_error l i = Some a -> date_of h a <= date_of h x) /\ (forall i a, (r <= i)%nat -> nth_error l i = Some a -> date_of h x < date_of h a).
Proof.
  intros Sd. assert (Mono : forall i j a b, (i <= j)%nat -> nth_error l i = Some a -> nth_error l j = Some b -> date_of h a <= date_of h b).
  { intros i j a b L I J. destruct (Nat.eq_dec i j) as [-> | N]; [rewrite I in J; injection J as ->; lia|]. apply Z.lt_le_incl. apply (sorted_nth _ Sd i j); [lia|apply map_nth_error; exact I|apply map_nth_error; exact J]. }
  induction n as [|n IH]; intros lo hi Lh Ll Ln A B; [lia|]. cbn [bisect_right]. destruct (Nat.ltb_spec lo hi) as [L|L].
  - set (mid := Nat.div2 (lo + hi)). assert (M : (lo <= mid < hi)%nat). { unfold mid. rewrite Nat.div2_div. split; [apply Nat.div_le_lower_bound; lia|apply Nat.div_lt_upper_bound; lia]. }
    destruct (nth_error l mid) as [a|] eqn:E; [|apply nth_error_None in E; lia]. unfold kr_lt. fold (date_of h x). fold (date_of h a). destruct (Z.ltb_spec (date_of h x) (date_of h a)) as [C|C].
    + apply IH; [lia|lia|lia|exact A|]. intros i b Hi Hb. pose proof (Mono mid i a b Hi E Hb). lia.
    + apply IH; [lia|lia|lia| |exact B]. intros i b Hi Hb. pose proof (Mono i mid b a ltac:(lia) Hb E). lia.
  - assert (lo = hi) by lia. subst hi. auto.
Qed.

Lemma insert_perm {A} i (x : A) l : Permutation (insert_at i x l) (x :: l).
Proof. unfold insert_at. rewrite <- (firstn_skipn i l) at 3. apply Permutation_sym, Permutation_middle. Qed.

Lemma nth_firstn {A} (l : list A) : forall r i, (i < r)%nat -> nth_error (firstn r l) i = nth_error l i.
Proof. induction l as [|a l IH]; intros [|r] i L; try lia; [reflexivity|]. destruct i as [|i]; [reflexivity|]. cbn. apply IH. lia. Qed.
Lemma nth_skipn {A} (l : list A) : forall r i, nth_error (skipn r l) i = nth_error l (r + i).
Proof. induction l as [|a l IH]; intros [|r] i; try reflexivity; [destruct i; reflexivity|]. cbn. apply IH. Qed.

(** Adding one key rate by _add_key_rate, to a collection in date order: at or after the last date it raises IndexError and nothing changes; at the
    date of another member it raises ValueError and leaves the new one in the collection as well; otherwise it returns the collection with the new one in
    place, sorted and linked, and self has the same members. *)
Theorem C90_add_one : forall c x h, c <> [] -> StronglySorted Z.lt (List.map (date_of h) c) ->
  ((forall a, In a c -> date_of h a <= date_of h x) -> add_one c x h = (h, (c, Err IndexError))) /\
  ((exists a, In a c /\ date_of h x < date_of h a) -> (exists a, In a c /\ date_of h a = date_of h x) -> exists h' c', add_one c x h = (h', (c', Err ValueError)) /\ Permutation c' (x :: c)) /\
  ((exists a, In a c /\ date_of h x < date_of h a) -> (forall a, In a c -> date_of h a <> date_of h x) -> exists h' c', add_one c x h = (h', (c', Ok c')) /\
     Permutation c' (x :: c) /\ StronglySorted Z.lt (List.map (date_of h') c') /\ neighbours h' c').
Proof.
  intros c x h NE Sd. unfold add_one. destruct (bisect_spec h c x Sd (S (List.length c)) 0 (List.length c)) as (Lr & A & B); [lia|lia|lia|intros; lia|intros i a Hi Ha; assert (nth_error c i <> None) by congruence; apply nth_error_Some in H; lia|].
  set (r := bisect_right (S (List.length c)) h c x 0 (List.length c)) in *.
  assert (Found : (exists a, In a c /\ date_of h x < date_of h a) -> exists a, nth_error c r = Some a /\ kr_ne (h a) (h x) = true).
  { intros (a & I & L). destruct (nth_error c r) as [b|] eqn:E.
    - exists b. split; [reflexivity|]. specialize (B r b (le_n _) E). unfold kr_ne. destruct (kr_eqb (h b) (h x)) eqn:Q; [|reflexivity]. apply kr_eqb_iff in Q. unfold date_of in B. lia.
    - apply nth_error_None in E. apply In_nth_error in I. destruct I as (i & I). assert (nth_error c i <> None) by congruence. apply nth_error_Some in H. specialize (A i a ltac:(lia) I). lia. }
  split; [|split].
  - intros All. destruct (nth_error c r) as [b|] eqn:E; [|reflexivity]. specialize (B r b (le_n _) E). specialize (All b (nth_error_In _ _ E)). lia.
  - intros Ex (a & I & Q). destruct (Found Ex) as (b & E & N). rewrite E, N. destruct (C22_rejected h (insert_at r x c)) as (h' & R).
    { right. intros ND. apply (Permutation_NoDup (Permutation_map _ (insert_perm r x c))) in ND. cbn in ND. inversion ND as [|? ? Hn _]; subst. apply Hn. rewrite <- Q. apply in_map. exact I. }
    rewrite R. exists h', (insert_at r x c). split; [reflexivity|apply insert_perm].
  - intros Ex All. destruct (Found Ex) as (b & E & N). rewrite E, N.
    assert (Ss : StronglySorted Z.lt (List.map (date_of h) (insert_at r x c))).
    { unfold insert_at. rewrite map_app. cbn [List.map]. assert (S1 : forall l1 l2 d, StronglySorted Z.lt (l1 ++ l2) -> (forall y, In y l1 -> y < d) -> (forall y, In y l2 -> d < y) -> StronglySorted Z.lt (l1 ++ d :: l2)).
      { induction l1 as [|z l1 IH]; intros l2 d Sl L1 L2; cbn in *; [constructor; [exact Sl|apply Forall_forall; exact L2]|]. apply StronglySorted_inv in Sl. destruct Sl as [Sl F]. constructor; [apply IH; auto|].
        rewrite Forall_forall in *. intros y Hy. apply in_app_or in Hy. destruct Hy as [Hy|[<- | Hy]]; [apply F, in_or_app; auto|apply L1; auto|apply F, in_or_app; auto]. }
      apply S1.
      - rewrite <- map_app, firstn_skipn. exact Sd.
      - intros y Hy. apply in_map_iff in Hy. destruct Hy as (a & <- & Ia). assert (Ic : In a c) by (rewrite <- (firstn_skipn r c); apply in_or_app; auto). apply In_nth_error in Ia. destruct Ia as (i & Ia). assert (Li : (i < r)%nat). { assert (nth_error (firstn r c) i <> None) by congruence. apply nth_error_Some in H. rewrite firstn_length in H. lia. }
        rewrite nth_firstn in Ia by exact Li. specialize (A i a Li Ia). specialize (All a Ic). lia.
      - intros y Hy. apply in_map_iff in Hy. destruct Hy as (a & <- & Ia). apply In_nth_error in Ia. destruct Ia as (i & Ia). rewrite nth_skipn in Ia. apply (B (r + i)%nat a); [lia|exact Ia]. }
    assert (ND : NoDup (List.map (date_of h) (insert_at r x c))).
    { clear -Ss. induction Ss as [|z l Sl IH F]; constructor; auto. intros I. rewrite Forall_forall in F. specialize (F z I). lia. }
    assert (NE' : insert_at r x c <> []) by (unfold insert_at; destruct (firstn r c); discriminate).
    destruct (C22_construction h (insert_at r x c) NE' ND) as (h' & c' & R & P & S' & Nb & _ & Core). rewrite R.
    assert (c' = insert_at r x c).
    { assert (Dt : forall l, List.map (date_of h') l = List.map (date_of h) l) by (intros l; apply map_ext; intros a; apply Core). rewrite Dt in S'.
      clear -P S' Ss. revert S' Ss P. generalize (insert_at r x c) as m. induction c' as [|a c' IH]; intros m S' Sm P; [apply Permutation_nil in P; auto|].
      destruct m as [|b m]; [apply Permutation_sym, Permutation_nil in P; discriminate|]. cbn in S', Sm. apply StronglySorted_inv in S'. apply StronglySorted_inv in Sm. destruct S' as [S' F'], Sm as [Sm Fm]. rewrite Forall_forall in *.
      assert (a = b). { assert (Ia : In a (b :: m)) by (apply (Permutation_in _ P); left; reflexivity). assert (Ib : In b (a :: c')) by (apply (Permutation_in _ (Permutation_sym P)); left; reflexivity).
        destruct Ia as [Ia|Ia]; [auto|]. destruct Ib as [Ib|Ib]; [auto|]. specialize (F' _ (in_map (date_of h) _ _ Ib)). specialize (Fm _ (in_map (date_of h) _ _ Ia)). lia. }
      subst b. f_equal. apply IH; auto. apply Permutation_cons_inv in P. exact P. }
    subst c'. exists h', (insert_at r x c). split; [reflexivity|]. split; [apply insert_perm|]. auto.
Qed.
Print Assumptions C90_add_one.

Example C90_case : let c := [0%nat; 2%nat] in StronglySorted Z.lt (List.map (date_of ex_heap) c) /\ (exists a, In a c /\ date_of ex_heap 1%nat < date_of ex_heap a) /\ (forall a, In a c -> date_of ex_heap a <> date_of ex_heap 1%nat) /\
  snd (snd (add_one c 1%nat ex_heap)) = Ok [0%nat; 1%nat; 2%nat] /\ snd (snd (add_one c 0%nat ex_heap)) = Err ValueError /\ snd (snd (add_one c 3%nat ex_heap)) = Err IndexError.
Proof. split; [vm_compute; repeat constructor|]. split; [exists 2%nat; split; [right; left; reflexivity|vm_compute; reflexivity]|]. split; [intros a [<- | [<- | []]]; vm_compute; discriminate|]. vm_compute. auto. Qed.
