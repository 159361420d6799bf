(** Real vectors and matrices of a given dimension, as functions of the index (numpy arrays of floats; the coordinates
    at and beyond the dimension are never read). *)
From Coq Require Import Reals Lra List Lia Arith.
Open Scope R_scope.

(** numpy array of shape (n,) *)
Definition vec := nat -> R.
(** numpy array of shape (n, n) *)
Definition mat := nat -> nat -> R.
(** f 0 + ... + f (n-1) *)
Fixpoint sumn (n : nat) (f : nat -> R) : R := match n with O => 0 | S n => sumn n f + f n end.
(** a @ b for vectors of dimension n *)
Definition dot (n : nat) (a b : vec) : R := sumn n (fun i => a i * b i).
(** M @ v with v of dimension n *)
Definition mvec (n : nat) (M : mat) (v : vec) : vec := fun i => dot n (M i) v.
(** M @ N with inner dimension n *)
Definition mmul (n : nat) (M N : mat) : mat := fun i j => sumn n (fun k => M i k * N k j).
(** numpy M.T *)
Definition tr (M : mat) : mat := fun i j => M j i.
(** numpy np.eye(n) *)
Definition delta (i j : nat) : R := if Nat.eqb i j then 1 else 0.
(** v^T M v *)
Definition quad (n : nat) (M : mat) (v : vec) : R := sumn n (fun i => sumn n (fun j => v i * M i j * v j)).

Lemma sumn_ext n f g : (forall i, (i < n)%nat -> f i = g i) -> sumn n f = sumn n g.
Proof. induction n as [|n IH]; intros H; cbn; [reflexivity|]. rewrite IH, H by (intros; try apply H; lia). reflexivity. Qed.
Lemma sumn_plus n f g : sumn n (fun i => f i + g i) = sumn n f + sumn n g.
Proof. induction n as [|n IH]; cbn; [ring|]. rewrite IH. ring. Qed.
Lemma sumn_minus n f g : sumn n (fun i => f i - g i) = sumn n f - sumn n g.
Proof. induction n as [|n IH]; cbn; [ring|]. rewrite IH. ring. Qed.
Lemma sumn_scal n c f : sumn n (fun i => c * f i) = c * sumn n f.
Proof. induction n as [|n IH]; cbn; [ring|]. rewrite IH. ring. Qed.
Lemma sumn_scal_r n c f : sumn n (fun i => f i * c) = sumn n f * c.
Proof. induction n as [|n IH]; cbn; [ring|]. rewrite IH. ring. Qed.
Lemma sumn_0 n : sumn n (fun _ => 0) = 0.
Proof. induction n as [|n IH]; cbn; [reflexivity|]. rewrite IH. ring. Qed.
Lemma sumn_zero n f : (forall i, (i < n)%nat -> f i = 0) -> sumn n f = 0.
Proof. intros H. rewrite (sumn_ext n f (fun _ => 0)) by auto. apply sumn_0. Qed.
Lemma sumn_opp n f : sumn n (fun i => - f i) = - sumn n f.
Proof. induction n as [|n IH]; cbn; [ring|]. rewrite IH. ring. Qed.
Lemma sumn_const n c : sumn n (fun _ => c) = INR n * c.
Proof. induction n as [|n IH]; [cbn; ring|]. change (sumn (S n) (fun _ => c)) with (sumn n (fun _ => c) + c). rewrite IH, S_INR. ring. Qed.
Lemma sumn_swap n m (f : nat -> nat -> R) : sumn n (fun i => sumn m (f i)) = sumn m (fun j => sumn n (fun i => f i j)).
Proof.
  induction n as [|n IH]; cbn; [symmetry; apply sumn_0|]. rewrite IH. rewrite <- sumn_plus. reflexivity.
Qed.
Lemma sumn_delta n i f : (i < n)%nat -> sumn n (fun j => delta i j * f j) = f i.
Proof.
  unfold delta. induction n as [|n IH]; intros H; [lia|]. cbn [sumn]. destruct (Nat.eqb_spec i n) as [->|N].
  - rewrite sumn_zero; [ring|]. intros j J. destruct (Nat.eqb_spec n j); [lia|ring].
  - rewrite IH by lia. ring.
Qed.
Lemma delta_sym i j : delta i j = delta j i.
Proof. unfold delta. rewrite Nat.eqb_sym. reflexivity. Qed.
Lemma delta_refl i : delta i i = 1.
Proof. unfold delta. rewrite Nat.eqb_refl. reflexivity. Qed.
Lemma sumn_nonneg n f : (forall i, (i < n)%nat -> 0 <= f i) -> 0 <= sumn n f.
Proof. induction n as [|n IH]; intros H; cbn; [lra|]. pose proof (H n ltac:(lia)). specialize (IH (fun i I => H i ltac:(lia))). lra. Qed.
Lemma sumn_le n f g : (forall i, (i < n)%nat -> f i <= g i) -> sumn n f <= sumn n g.
Proof. induction n as [|n IH]; intros H; cbn; [lra|]. pose proof (H n ltac:(lia)). specialize (IH (fun i I => H i ltac:(lia))). lra. Qed.

Lemma dot_sym n a b : dot n a b = dot n b a.
Proof. apply sumn_ext. intros. ring. Qed.
Lemma dot_ext n a b a' b' : (forall i, (i < n)%nat -> a i = a' i) -> (forall i, (i < n)%nat -> b i = b' i) -> dot n a b = dot n a' b'.
Proof. intros A B. apply sumn_ext. intros i I. rewrite A, B by auto. reflexivity. Qed.
Lemma mvec_mmul n M N v i : mvec n (mmul n M N) v i = mvec n M (mvec n N v) i.
Proof.
  unfold mvec, dot, mmul. rewrite (sumn_ext n _ (fun j => sumn n (fun k => M i k * N k j * v j))) by (intros; rewrite sumn_scal_r; reflexivity).
  rewrite sumn_swap. apply sumn_ext. intros k K. rewrite <- sumn_scal. apply sumn_ext. intros. ring.
Qed.

(** derivative of a finite sum *)
Lemma sumn_deriv n (f g : nat -> R -> R) x : (forall i, (i < n)%nat -> derivable_pt_lim (f i) x (g i x)) -> derivable_pt_lim (fun t => sumn n (fun i => f i t)) x (sumn n (fun i => g i x)).
Proof.
  induction n as [|n IH]; intros H; cbn; [apply derivable_pt_lim_const|].
  apply (derivable_pt_lim_plus (fun t => sumn n (fun i => f i t)) (f n)); [apply IH; intros; apply H; lia|apply H; lia].
Qed.
