(** Property theorem C93: equality of key rate collections. *)
From Verif Require Import Base PyDate DayCount PyList KeyRate KeyRateFacts Curve Cashflow Sequence P_KeyRate P_Sequence.
From Coq Require Import Permutation Sorted.
Open Scope Z_scope.

(** Two key rates with the same convention and date. *)
Definition alike (h : heap) (a b : addr) : Prop := kr_dcc (h a) = kr_dcc (h b) /\ kr_date (h a) = kr_date (h b).
Lemma alike_refl h a : alike h a a. Proof. split; reflexivity. Qed.

Lemma eqb_alike h a b : Nat.eqb a b || kr_eqb (h a) (h b) = true <-> alike h a b.
Proof. rewrite orb_true_iff, Nat.eqb_eq, kr_eqb_iff. unfold alike. split; [intros [-> | H]; [split; reflexivity|exact H]|auto]. Qed.
Lemma eqb_iff h : forall a b, list_eqb h a b = true <-> Forall2 (alike h) a b.
Proof.
  induction a as [|x a IH]; intros [|y b]; cbn [list_eqb]; try (split; [discriminate|intros H; inversion H]).
  - split; auto.
  - rewrite andb_true_iff, eqb_alike, IH. split; [intros []; constructor; auto|intros H; inversion H; subst; auto].
Qed.

(** c == d: the same number of members, and members at the same place alike. *)
Theorem C93_meaning : forall h s t, sq_eqb h s t = true <-> sq_len s = sq_len t /\ forall i a b, nth_error (sq_iter s) i = Some a -> nth_error (sq_iter t) i = Some b -> alike h a b.
Proof.
  intros h [c k] [d j]. unfold sq_eqb, sq_len, sq_iter. cbn [sq_rates]. rewrite eqb_iff. revert d. induction c as [|x c IH]; intros [|y d]; cbn [List.length].
  - split; [split; [reflexivity|intros [|i]; discriminate]|constructor].
  - split; [intros H; inversion H|intros [H _]; discriminate].
  - split; [intros H; inversion H|intros [H _]; discriminate].
  - split.
    + intros H. inversion H as [|? ? ? ? A F]; subst. apply IH in F. destruct F as [L F]. split; [congruence|]. intros [|i] a b; cbn [nth_error]; [congruence|apply F].
    + intros [L H]. constructor; [apply (H 0%nat); reflexivity|]. apply IH. split; [congruence|]. intros i. apply (H (S i)).
Qed.
Print Assumptions C93_meaning.

(** It is an equivalence. *)
Theorem C93_equivalence : forall h s t w, sq_eqb h s s = true /\ sq_eqb h s t = sq_eqb h t s /\ (sq_eqb h s t = true -> sq_eqb h t w = true -> sq_eqb h s w = true).
Proof.
  intros h s t w. assert (Sy : forall a b, sq_eqb h a b = true -> sq_eqb h b a = true).
  { intros a b H. apply C93_meaning in H. destruct H as [L H]. apply C93_meaning. split; [congruence|]. intros i x y X Y. destruct (H i y x Y X) as [A B]. split; congruence. }
  split; [apply C93_meaning; split; [reflexivity|]; intros i a b A B; assert (a = b) by congruence; subst; apply alike_refl|]. split.
  - destruct (sq_eqb h s t) eqn:E; [symmetry; apply Sy; exact E|]. destruct (sq_eqb h t s) eqn:E'; [|reflexivity]. apply Sy in E'. congruence.
  - intros H1 H2. apply C93_meaning in H1, H2. destruct H1 as [L1 H1], H2 as [L2 H2]. apply C93_meaning. split; [congruence|]. intros i a b A B.
    destruct (nth_error (sq_iter t) i) as [y|] eqn:Y; [|apply nth_error_None in Y; assert (i < sq_len s)%nat by (apply nth_error_Some; unfold sq_iter in A; congruence); unfold sq_iter, sq_len in *; lia].
    destruct (H1 i a y A Y), (H2 i y b Y B). split; congruence.
Qed.
Print Assumptions C93_equivalence.

(** For collections as the constructor leaves them, the order in which the members were given and how far next() has come do not matter: they are equal when each member of one is
    like one of the other and conversely. *)
Theorem C93_as_sets : forall h s t, usable h s -> usable h t ->
  (sq_eqb h s t = true <-> (forall a, In a (sq_iter s) -> exists b, In b (sq_iter t) /\ alike h a b) /\ (forall b, In b (sq_iter t) -> exists a, In a (sq_iter s) /\ alike h b a)).
Proof.
  intros h [c k] [d j] [Sc _] [Sd _]. unfold sq_eqb, sq_iter in *. cbn [sq_rates] in *. rewrite eqb_iff. split.
  - intros F. induction F as [|x y c d A F IH]; [split; intros a []|]. inversion Sc; inversion Sd; subst. destruct IH as [I1 I2]; auto. destruct A as [A1 A2].
    split; intros a [<- | I]; [exists y; split; [left; reflexivity|split; auto]|destruct (I1 a I) as (b & B1 & B2); exists b; split; [right|]; auto|exists x; split; [left; reflexivity|split; auto]|destruct (I2 a I) as (b & B1 & B2); exists b; split; [right|]; auto].
  - revert d Sd. induction c as [|x c IH]; intros [|y d] Sd [H1 H2]; [constructor|destruct (H2 y (or_introl eq_refl)) as (? & [] & _)|destruct (H1 x (or_introl eq_refl)) as (? & [] & _)|].
    cbn [List.map] in *. inversion Sc as [|? ? Sc' Fc]; subst. inversion Sd as [|? ? Sd' Fd]; subst. rewrite Forall_map, Forall_forall in Fc, Fd. unfold date_of in *.
    assert (A : alike h x y).
    { destruct (H1 x (or_introl eq_refl)) as (b & [<- | Ib] & B1 & B2); [split; auto|]. destruct (H2 y (or_introl eq_refl)) as (a & [<- | Ia] & A1 & A2); [split; auto|].
      specialize (Fc a Ia). specialize (Fd b Ib). lia. }
    assert (Ad : kr_date (h x) = kr_date (h y)) by apply A.
    constructor; [exact A|]. apply IH; auto. split.
    + intros a Ia. destruct (H1 a (or_intror Ia)) as (b & [<- | Ib] & B); [|eauto]. specialize (Fc a Ia). destruct B as [_ B]. lia.
    + intros b Ib. destruct (H2 b (or_intror Ib)) as (a & [<- | Ia] & B); [|eauto]. specialize (Fd b Ib). destruct B as [_ B]. lia.
Qed.
Print Assumptions C93_as_sets.

(** Equal collections with equal bumps adjust every date alike. *)
Theorem C93_adjustments : forall h s t, usable h s -> usable h t -> sq_eqb h s t = true -> (forall i a b, nth_error (sq_iter s) i = Some a -> nth_error (sq_iter t) i = Some b -> kr_bump (h a) = kr_bump (h b)) ->
  forall d, coll_call h (sq_iter s) d = coll_call h (sq_iter t) d.
Proof.
  intros h s t [_ Ns] [_ Nt] E Bu d. apply C93_meaning in E. destruct E as [L E]. unfold coll_call.
  assert (D : forall i, option_map (date_of h) (nth_error (sq_iter s) i) = option_map (date_of h) (nth_error (sq_iter t) i)).
  { intros i. destruct (nth_error (sq_iter s) i) as [a|] eqn:A; destruct (nth_error (sq_iter t) i) as [b|] eqn:B; cbn [option_map]; [f_equal; apply (E i a b A B)| | |reflexivity].
    - apply nth_error_None in B. assert (i < List.length (sq_iter s))%nat by (apply nth_error_Some; congruence). unfold sq_len, sq_iter in *. lia.
    - apply nth_error_None in A. assert (i < List.length (sq_iter t))%nat by (apply nth_error_Some; congruence). unfold sq_len, sq_iter in *. lia. }
  assert (K : forall i a b, nth_error (sq_iter s) i = Some a -> nth_error (sq_iter t) i = Some b -> kr_call (h a) d = kr_call (h b) d).
  { intros i a b A B. destruct (Ns i a A) as (Pa & Na & Ca), (Nt i b B) as (Pb & Nb & Cb). destruct (E i a b A B) as [E1 E2]. rewrite Ca, Cb, E1, E2, (Bu i a b A B), Pa, Pb, Na, Nb, (D (S i)). destruct i; [reflexivity|]. rewrite (D i). reflexivity. }
  assert (M : mapM (fun a => kr_call (h a) d) (sq_iter s) = mapM (fun a => kr_call (h a) d) (sq_iter t)).
  { clear -K L. unfold sq_len in L. fold (sq_iter s) in L. fold (sq_iter t) in L. revert K L. generalize (sq_iter s), (sq_iter t). intros l. induction l as [|a l IH]; intros [|b l'] K L; try discriminate; [reflexivity|].
    cbn [mapM]. rewrite (K 0%nat a b eq_refl eq_refl). rewrite (IH l'); [reflexivity| |cbn in L; congruence]. intros i x y X Y. exact (K (S i) x y X Y). }
  rewrite M. reflexivity.
Qed.
Print Assumptions C93_adjustments.

(** Not so without that condition: == ignores the bumps. *)
Definition two_bumps : heap := fun a => set_bump_val (if Nat.eqb a 0 then 1 else 2)%Q (new_key_rate ACT365 738886 None None).
Theorem C93_bumps_refuted : exists h s t x y, usable h s /\ usable h t /\ sq_eqb h s t = true /\ coll_call h (sq_iter s) 738886 = Ok x /\ coll_call h (sq_iter t) 738886 = Ok y /\ ~ (x == y)%Q.
Proof.
  exists two_bumps, (Seq [0%nat] 0), (Seq [1%nat] 0), 1%Q, 2%Q.
  assert (G : forall a, usable two_bumps (Seq [a] 0)). { intros a. split; [repeat constructor|]. intros [|i] b; cbn; [intros [= <-]; split; [reflexivity|split; reflexivity]|destruct i; discriminate]. }
  split; [apply G|]. split; [apply G|]. split; [reflexivity|]. split; [reflexivity|]. split; [reflexivity|]. intros C. discriminate C.
Qed.
Print Assumptions C93_bumps_refuted.

(** Two collections given in different orders, built in one program. *)
Definition twice : heap := fun a => new_key_rate ACT365 (700000 + Z.of_nat (Nat.modulo a 3)) None None.
Example C93_case : exists h0 s h t, sq_new [2; 0; 1]%nat twice = (h0, Ok s) /\ sq_new [3; 4; 5]%nat h0 = (h, Ok t) /\ usable h t /\ sq_eqb h s t = true /\ sq_iter s <> sq_iter t.
Proof.
  exists (fst (sq_new [2; 0; 1]%nat twice)), (Seq [0; 1; 2]%nat 0), (fst (sq_new [3; 4; 5]%nat (fst (sq_new [2; 0; 1]%nat twice)))), (Seq [3; 4; 5]%nat 0).
  assert (E1 : snd (sq_new [2; 0; 1]%nat twice) = Ok (Seq [0; 1; 2]%nat 0)) by (vm_compute; reflexivity).
  assert (E2 : snd (sq_new [3; 4; 5]%nat (fst (sq_new [2; 0; 1]%nat twice))) = Ok (Seq [3; 4; 5]%nat 0)) by (vm_compute; reflexivity).
  assert (E2' : sq_new [3; 4; 5]%nat (fst (sq_new [2; 0; 1]%nat twice)) = (fst (sq_new [3; 4; 5]%nat (fst (sq_new [2; 0; 1]%nat twice))), Ok (Seq [3; 4; 5]%nat 0))) by (rewrite <- E2; apply surjective_pairing).
  split; [rewrite <- E1; apply surjective_pairing|]. split; [exact E2'|]. split; [apply (C79_constructed _ _ _ _ E2')|]. split; [vm_compute; reflexivity|discriminate].
Qed.
