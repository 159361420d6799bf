(** Reasoning about the fuelled loops. *)
From Verif Require Import Base.

Section Iter.
  Context {A B : Type} (f : A -> ctl A B) (P : A -> Prop) (R : B -> Prop) (mu : A -> Z).
  Hypothesis step : forall a, P a ->
    match f a with Go a' => P a' /\ mu a' < mu a | Stop b => R b end.

  Lemma iter_inv p : forall a, P a ->
    match iter p f a with Go a' => P a' /\ mu a' <= mu a - Z.pos p | Stop b => R b end.
  Proof.
    induction p as [q IH|q IH|]; intros a Ha; cbn [iter].
    - pose proof (step a Ha) as S. destruct (f a) as [a1|b]; auto. destruct S as [P1 M1].
      pose proof (IH a1 P1) as S. destruct (iter q f a1) as [a2|b]; auto. destruct S as [P2 M2].
      pose proof (IH a2 P2) as S. destruct (iter q f a2) as [a3|b]; auto. destruct S as [P3 M3].
      split; auto. lia.
    - pose proof (IH a Ha) as S. destruct (iter q f a) as [a2|b]; auto. destruct S as [P2 M2].
      pose proof (IH a2 P2) as S. destruct (iter q f a2) as [a3|b]; auto. destruct S as [P3 M3].
      split; auto. lia.
    - pose proof (step a Ha) as S. destruct (f a) as [a1|b]; auto. destruct S. split; auto. lia.
  Qed.
End Iter.

(** A loop whose steps decrease a non-negative measure below the fuel ends through [Stop]. *)
Lemma loop_rule {A B} (f : A -> ctl A (res B)) (P : A -> Prop) (R : res B -> Prop) (mu : A -> Z) p a :
  (forall a, P a -> match f a with Go a' => P a' /\ mu a' < mu a | Stop b => R b end) ->
  (forall a, P a -> 0 <= mu a) ->
  P a -> mu a < Z.pos p -> R (loop p f a).
Proof.
  intros Hs Hm Ha Hp. unfold loop. pose proof (iter_inv f P R mu Hs p a Ha) as S.
  destruct (iter p f a) as [a'|b]; auto. destruct S as [P' M']. specialize (Hm a' P'). lia.
Qed.

Lemma mapM_Ok {A B} (f : A -> res B) l r : mapM f l = Ok r -> Forall2 (fun a b => f a = Ok b) l r.
Proof.
  revert r; induction l as [|a l IH]; cbn [mapM]; intros r H.
  - injection H as <-. constructor.
  - destruct (f a) as [b|] eqn:E; cbn [bind] in H; [|discriminate].
    destruct (mapM f l) as [bs|] eqn:E2; cbn [bind] in H; [|discriminate].
    injection H as <-. constructor; auto.
Qed.

Lemma mapM_total {A B} (f : A -> res B) l : (forall a, In a l -> exists b, f a = Ok b) -> exists r, mapM f l = Ok r.
Proof.
  induction l as [|a l IH]; intros H; cbn [mapM]; [eauto|].
  destruct (H a (or_introl eq_refl)) as [b ->]. cbn [bind].
  destruct IH as [r ->]; [|cbn [bind]; eauto]. intros x Hx. apply H. right; auto.
Qed.

Lemma Forall2_In_r {A B} (R : A -> B -> Prop) l r b : Forall2 R l r -> In b r -> exists a, In a l /\ R a b.
Proof.
  induction 1 as [|a b' l r H _ IH]; cbn [In]; [tauto|].
  intros [->|I]; [eauto|]. destruct (IH I) as (a' & I' & R'). eauto.
Qed.
Lemma Forall2_In_l {A B} (R : A -> B -> Prop) l r a : Forall2 R l r -> In a l -> exists b, In b r /\ R a b.
Proof.
  induction 1 as [|a' b l r H _ IH]; cbn [In]; [tauto|].
  intros [->|I]; [eauto|]. destruct (IH I) as (b' & I' & R'). eauto.
Qed.

Lemma range_incl_In a b x : In x (List.map (fun i => a + Z.of_nat i) (seq 0 (Z.to_nat (b - a + 1)))) <-> a <= x <= b.
Proof.
  rewrite in_map_iff. split.
  - intros (i & <- & I). apply in_seq in I. lia.
  - intros H. exists (Z.to_nat (x - a)). split; [lia|]. apply in_seq. lia.
Qed.
