(** Python's [sorted(list(l), key=key)] and [bisect.insort_right(l, x, key=key)] for integer keys (dates): stable
    insertion.  These model CPython's library, not a file of /repo. *)
From Verif Require Import Base.
From Coq Require Import Sorting.Sorted Permutation.
Open Scope Z_scope.

(** [bisect.insort_right] on a sorted list: after the last element whose key is not greater.  (On an unsorted list
    bisection would behave differently; the code only calls it on sorted ones.) *)
Fixpoint insort {A} (key : A -> Z) (x : A) (l : list A) : list A :=
  match l with
  | [] => [x]
  | y :: l' => if key y <=? key x then y :: insort key x l' else x :: l
  end.

(** [sorted]: stable *)
Definition sort_by {A} (key : A -> Z) (l : list A) : list A := fold_left (fun acc x => insort key x acc) l [].

Section Facts.
Context {A : Type} (key : A -> Z).
Notation sorted_keys l := (StronglySorted Z.le (List.map key l)).

Lemma insort_perm x l : Permutation (insort key x l) (x :: l).
Proof.
  induction l as [|y l IH]; cbn; [auto|]. destruct (key y <=? key x); [|auto].
  rewrite IH. apply perm_swap.
Qed.

Lemma sort_acc_perm l : forall acc, Permutation (fold_left (fun acc x => insort key x acc) l acc) (acc ++ l).
Proof.
  induction l as [|x l IH]; intros acc; cbn; [rewrite app_nil_r; auto|].
  rewrite IH, insort_perm. cbn. apply Permutation_middle.
Qed.

Lemma sort_by_perm l : Permutation (sort_by key l) l.
Proof. apply (sort_acc_perm l []). Qed.

Lemma insort_sorted x l : sorted_keys l -> sorted_keys (insort key x l).
Proof.
  induction l as [|y l IH]; cbn; intros H; [repeat constructor|].
  inversion H as [|? ? H1 H2]; subst. destruct (key y <=? key x) eqn:E; cbn.
  - constructor; [auto|]. apply Forall_forall. intros z Hz.
    assert (P : In z (List.map key (x :: l))) by (eapply Permutation_in; [apply Permutation_map, insort_perm | exact Hz]).
    cbn in P. destruct P as [<-|P]; [lia|]. rewrite Forall_forall in H2. auto.
  - constructor; [auto|]. constructor; [lia|]. eapply Forall_impl; [|exact H2]. cbn. intros; lia.
Qed.

Lemma sort_acc_sorted l : forall acc, sorted_keys acc -> sorted_keys (fold_left (fun acc x => insort key x acc) l acc).
Proof. induction l as [|x l IH]; cbn; intros; auto using insort_sorted. Qed.

Lemma sort_by_sorted l : sorted_keys (sort_by key l).
Proof. apply sort_acc_sorted. constructor. Qed.

(** stability: the elements of one key keep their order *)
Definition at_key (k : Z) (l : list A) : list A := filter (fun x => key x =? k) l.

Lemma insort_stable k x l : sorted_keys l -> at_key k (insort key x l) = at_key k (l ++ [x]).
Proof.
  unfold at_key. induction l as [|y l IH]; cbn [insort]; intros H; [reflexivity|].
  inversion H as [|? ? H1 H2]; subst. destruct (key y <=? key x) eqn:E; cbn [filter app].
  - rewrite IH; auto.
  - destruct (key x =? k) eqn:Ek.
    + assert (Hn : forall z, In z (y :: l) -> (key z =? k) = false).
      { intros z [<-|Hz]; [lia|]. rewrite Forall_forall in H2. specialize (H2 (key z) (in_map key _ _ Hz)). lia. }
      assert (Hnil : filter (fun z => key z =? k) (y :: l) = []).
      { clear -Hn. induction (y :: l) as [|z m IHm]; [reflexivity|]. cbn. rewrite Hn by (left; auto). apply IHm. intros; apply Hn; right; auto. }
      cbn [filter] in Hnil. rewrite filter_app. cbn [filter]. rewrite Ek.
      destruct (key y =? k); [discriminate|]. rewrite Hnil. reflexivity.
    + rewrite filter_app. cbn [filter]. rewrite Ek, app_nil_r. reflexivity.
Qed.

Lemma sort_acc_stable k l : forall acc, sorted_keys acc ->
  at_key k (fold_left (fun acc x => insort key x acc) l acc) = at_key k (acc ++ l).
Proof.
  induction l as [|x l IH]; intros acc Ha; cbn [fold_left]; [rewrite app_nil_r; reflexivity|].
  rewrite IH by auto using insort_sorted. pose proof (insort_stable k x acc Ha) as Hs. unfold at_key in *.
  rewrite (filter_app _ (insort key x acc)), Hs, <- filter_app, <- app_assoc. reflexivity.
Qed.

Lemma sort_by_stable k l : at_key k (sort_by key l) = at_key k l.
Proof. apply (sort_acc_stable k l []). constructor. Qed.

(** A list is determined by being sorted and by its elements of each key. *)
Lemma sorted_stable_unique l : forall l', sorted_keys l -> sorted_keys l' -> (forall k, at_key k l = at_key k l') -> l = l'.
Proof.
  induction l as [|x l IH]; intros l' S1 S2 H.
  - destruct l' as [|y l']; [reflexivity|]. specialize (H (key y)). unfold at_key in H. cbn in H. rewrite Z.eqb_refl in H. discriminate.
  - inversion S1 as [|? ? H1 H2]; subst. destruct l' as [|y l'].
    + specialize (H (key x)). unfold at_key in H. cbn in H. rewrite Z.eqb_refl in H. discriminate.
    + inversion S2 as [|? ? H3 H4]; subst. rewrite Forall_forall in H2, H4.
      assert (K : key x = key y).
      { assert (I1 : In x (at_key (key x) (y :: l'))) by (rewrite <- H; unfold at_key; cbn; rewrite Z.eqb_refl; left; auto).
        assert (I2 : In y (at_key (key y) (x :: l))) by (rewrite H; unfold at_key; cbn; rewrite Z.eqb_refl; left; auto).
        apply filter_In in I1. apply filter_In in I2. destruct I1 as [I1 _], I2 as [I2 _].
        assert (key y <= key x) by (destruct I1 as [->|I1]; [lia|]; apply H4, in_map, I1).
        assert (key x <= key y) by (destruct I2 as [->|I2]; [lia|]; apply H2, in_map, I2). lia. }
      pose proof (H (key x)) as Hx. unfold at_key in Hx. cbn in Hx. rewrite K, !Z.eqb_refl in Hx. injection Hx as -> Ht.
      f_equal. apply IH; auto. intros k. specialize (H k). unfold at_key in H. cbn in H. destruct (key y =? k); [injection H; auto|auto].
Qed.

Lemma sort_by_id l : sorted_keys l -> sort_by key l = l.
Proof. intros H. apply sorted_stable_unique; auto using sort_by_sorted, sort_by_stable. Qed.

(** with distinct keys, the sorted list does not depend on the order given *)
Lemma filter_nil (f : A -> bool) l : (forall z, In z l -> f z = false) -> filter f l = [].
Proof. induction l as [|y l IH]; cbn; intros H; [auto|]. rewrite (H y) by auto. apply IH. intros; apply H; auto. Qed.

Lemma at_key_NoDup k l : NoDup (List.map key l) -> forall x, In x l -> key x = k -> at_key k l = [x].
Proof.
  unfold at_key. induction l as [|y l IH]; cbn; intros H x Hx E; [contradiction|]; inversion H as [|? ? H1 H2]; subst.
  destruct Hx as [->|Hx].
  - rewrite Z.eqb_refl. f_equal. apply filter_nil. intros z Hz. destruct (key z =? key x) eqn:Ez; auto.
    exfalso. apply H1. apply Z.eqb_eq in Ez. rewrite <- Ez. apply in_map, Hz.
  - destruct (key y =? key x) eqn:Ez; [|auto]. exfalso. apply Z.eqb_eq in Ez. apply H1. rewrite Ez. apply in_map, Hx.
Qed.

Lemma at_key_none k l : (forall x, In x l -> key x <> k) -> at_key k l = [].
Proof. intros H. apply filter_nil. intros z Hz. specialize (H z Hz). lia. Qed.

Lemma sort_by_unique l l' : NoDup (List.map key l) -> Permutation l l' -> sort_by key l = sort_by key l'.
Proof.
  intros N P. apply sorted_stable_unique; auto using sort_by_sorted. intros k. rewrite !sort_by_stable.
  assert (N' : NoDup (List.map key l')) by (eapply Permutation_NoDup; [apply Permutation_map, P | exact N]).
  destruct (in_dec Z.eq_dec k (List.map key l)) as [I|I].
  - apply in_map_iff in I. destruct I as (x & E & I). rewrite (at_key_NoDup k l N x I E).
    rewrite (at_key_NoDup k l' N' x); auto. eapply Permutation_in; eauto.
  - rewrite !at_key_none; auto; intros x Hx E; apply I; rewrite <- E; apply in_map; auto.
    eapply Permutation_in; [apply Permutation_sym, P | exact Hx].
Qed.
End Facts.
