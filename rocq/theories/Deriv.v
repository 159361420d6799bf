(** Derivatives of explicit functions (the standard library's lemmas, stated for lambda terms). *)
From Coq Require Import Reals Lra.
Open Scope R_scope.
Notation D f t a := (derivable_pt_lim f t a) (only parsing).

Lemma d_eq f t a b : a = b -> D f t a -> D f t b.
Proof. intros ->. auto. Qed.
Lemma d_fun f g t a : (forall x, f x = g x) -> D f t a -> D g t a.
Proof. intros E H eps P. destruct (H eps P) as [d Hd]. exists d. intros h N L. rewrite <- !E. auto. Qed.
Lemma d_const c t : D (fun _ => c) t 0.
Proof. apply derivable_pt_lim_const. Qed.
Lemma d_id t : D (fun x => x) t 1.
Proof. apply derivable_pt_lim_id. Qed.
Lemma d_scal c f t a : D f t a -> D (fun x => c * f x) t (c * a).
Proof. apply derivable_pt_lim_scal. Qed.
Lemma d_plus f g t a b : D f t a -> D g t b -> D (fun x => f x + g x) t (a + b).
Proof. apply derivable_pt_lim_plus. Qed.
Lemma d_minus f g t a b : D f t a -> D g t b -> D (fun x => f x - g x) t (a - b).
Proof. apply derivable_pt_lim_minus. Qed.
Lemma d_opp f t a : D f t a -> D (fun x => - f x) t (- a).
Proof. apply derivable_pt_lim_opp. Qed.
Lemma d_mult f g t a b : D f t a -> D g t b -> D (fun x => f x * g x) t (a * g t + f t * b).
Proof. apply derivable_pt_lim_mult. Qed.
Lemma d_exp_of f t a : D f t a -> D (fun x => exp (f x)) t (a * exp (f t)).
Proof. intros H. eapply d_eq; [|apply (derivable_pt_lim_comp f exp t a (exp (f t)) H), derivable_pt_lim_exp]. ring. Qed.
Lemma d_lin c t : D (fun x => c * x) t c.
Proof. eapply d_eq; [|apply d_scal, d_id]. ring. Qed.
Lemma d_affine a b t : D (fun x => a + b * x) t b.
Proof. eapply d_eq; [|apply d_plus; [apply d_const|apply d_lin]]. ring. Qed.
Lemma d_exp c t : D (fun x => exp (c * x)) t (c * exp (c * t)).
Proof. apply (d_exp_of (fun x => c * x)), d_lin. Qed.
Lemma d_exp_affine a b x : D (fun x => exp (a + b * x)) x (b * exp (a + b * x)).
Proof. apply (d_exp_of (fun x => a + b * x)), d_affine. Qed.
