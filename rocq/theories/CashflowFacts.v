(** Facts about cashflows, needed by the yield curve and cashflow theorems. *)
From Verif Require Import Base PyDate DayCount PyList KeyRate Curve CurveFacts Cashflow.
From Coq Require Import Sorting.Sorted Permutation Lra Lqa.
Open Scope Z_scope.
Ltac lra := first [Lra.lra | Lqa.lra].

Lemma fold_Rplus l : forall a, fold_left Rplus l a = (a + rsum l)%R.
Proof.
  unfold rsum. induction l as [|x l IH]; intros a; cbn; [lra|]. rewrite IH, (IH (0 + x)%R). lra.
Qed.
Lemma rsum_cons x l : rsum (x :: l) = (x + rsum l)%R.
Proof. unfold rsum at 1. cbn. rewrite fold_Rplus. lra. Qed.
Lemma rsum_nil : rsum [] = 0%R.
Proof. reflexivity. Qed.
Lemma rsum_app l l' : rsum (l ++ l') = (rsum l + rsum l')%R.
Proof. induction l as [|x l IH]; cbn [app]; [rewrite rsum_nil; lra | rewrite !rsum_cons, IH; lra]. Qed.
Lemma rsum_perm l l' : Permutation l l' -> rsum l = rsum l'.
Proof. induction 1; rewrite ?rsum_cons; try lra. Qed.
Lemma rsum_scale k l : rsum (List.map (Rmult k) l) = (k * rsum l)%R.
Proof. induction l as [|x l IH]; cbn [List.map]; [rewrite !rsum_nil; lra | rewrite !rsum_cons, IH; lra]. Qed.

(** a payment counts: it has an amount and is dated on or after the reference date *)
Definition live (dc : curve) (p : payment) : bool := match amount p with Some _ => c_ref dc <=? payment_date p | None => false end.
Definition amt (p : payment) : R := match amount p with Some a => a | None => 0%R end.

Lemma pv_terms_spec spline c dc : pv_terms spline c dc =
  mapM (fun p => do df <- interpolate spline dc (payment_date p) None; Ok (df * amt p)%R) (filter (live dc) c).
Proof.
  induction c as [|p c IH]; [reflexivity|]. cbn [pv_terms filter]. unfold live at 1. unfold amt.
  destruct (amount p) as [a|] eqn:A; [|auto]. destruct (c_ref dc <=? payment_date p); [|auto].
  cbn [mapM]. destruct (interpolate spline dc (payment_date p) None); cbn; [|auto]. rewrite IH, A. reflexivity.
Qed.
