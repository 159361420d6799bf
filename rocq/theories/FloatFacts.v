(** Facts about binary64: exact conversions, operations as rounded real operations, relative error, monotonicity. *)
From Verif Require Import Base Float.
From Coq Require Import Reals Lra Lia.
From Flocq Require Import Core BinarySingleNaN Relative Plus_error.
Open Scope R_scope.

(** Rounding to the nearest double (ignoring overflow). *)
Definition fe := SpecFloat.fexp 53 1024.
Definition rn (x : R) : R := round radix2 fe ZnearestE x.
Definition u : R := bpow radix2 (-53).
Lemma fe_FLT : fe = FLT_exp (-1074) 53.
Proof. reflexivity. Qed.
Global Instance fe_valid : Valid_exp fe. Proof. rewrite fe_FLT. apply FLT_exp_valid. reflexivity. Qed.
Definition big : R := bpow radix2 1000.
Definition small : R := bpow radix2 (-1022).

Lemma rn_le x y : x <= y -> rn x <= rn y.
Proof. apply round_le; typeclasses eauto. Qed.
Lemma rn_0 : rn 0 = 0.
Proof. apply round_0. typeclasses eauto. Qed.
Lemma rn_opp x : rn (- x) = - rn x.
Proof. apply round_NE_opp. Qed.
Lemma rn_err x : x = 0 \/ small <= Rabs x -> Rabs (rn x - x) <= u * Rabs x.
Proof.
  intros [-> | H]; [rewrite rn_0, Rminus_0_r, Rabs_R0; lra|]. unfold rn. rewrite fe_FLT.
  replace u with (/ 2 * bpow radix2 (- 53 + 1)); [apply relative_error_N_FLT; [reflexivity|exact H]|].
  unfold u. replace (/ 2) with (bpow radix2 (-1)) by (cbn; lra). rewrite <- bpow_plus. reflexivity.
Qed.
Lemma rn_format x : generic_format radix2 fe x -> rn x = x.
Proof. apply round_generic. typeclasses eauto. Qed.
Lemma B2R_format (x : f64) : generic_format radix2 fe (B2R x).
Proof. apply generic_format_B2R. Qed.
Lemma rn_B2R (x : f64) : rn (B2R x) = B2R x.
Proof. apply rn_format, B2R_format. Qed.
Lemma rn_nearest x (y : f64) : Rabs (rn x - x) <= Rabs (B2R y - x).
Proof.
  pose proof (round_N_pt radix2 fe (fun z => negb (Z.even z)) x) as [_ N]. apply (N (B2R y)). apply B2R_format.
Qed.

Lemma format_dyadic n e : (Z.abs n <= 2 ^ 53)%Z -> (-1074 <= e)%Z -> generic_format radix2 fe (IZR n * bpow radix2 e).
Proof.
  intros N E. rewrite fe_FLT. destruct (Z.eq_dec (Z.abs n) (2 ^ 53)) as [Q|Q].
  - apply generic_format_FLT. exists (Float radix2 (Z.sgn n) (e + 53)); cbn [Fnum Fexp].
    + unfold F2R. cbn [Fnum Fexp]. rewrite bpow_plus. assert (IZR n = IZR (Z.sgn n) * bpow radix2 53).
      { rewrite <- (Z.abs_sgn n) at 1. rewrite Q, mult_IZR. rewrite Rmult_comm. f_equal. }
      rewrite H. ring.
    + change (radix_val radix2 ^ 53)%Z with (2 ^ 53)%Z. lia.
    + lia.
  - apply generic_format_FLT. exists (Float radix2 n e); cbn [Fnum Fexp]; [reflexivity| |exact E].
    change (radix_val radix2 ^ 53)%Z with (2 ^ 53)%Z. lia.
Qed.
Lemma big_max x : Rabs x <= big -> Rabs (rn x) < bpow radix2 1024.
Proof.
  intros H. apply Rle_lt_trans with big; [|apply bpow_lt; reflexivity]. unfold rn. apply abs_round_le_generic; try typeclasses eauto; [|exact H].
  rewrite fe_FLT. apply generic_format_FLT_bpow; [reflexivity|lia].
Qed.

(** [val x v]: the double x is finite and has value v. *)
Definition val (x : f64) (v : R) : Prop := is_finite x = true /\ B2R x = v.

Lemma flit_val n e : (Z.abs n <= 2 ^ 53)%Z -> (-1074 <= e <= 900)%Z -> val (flit n e) (IZR n * bpow radix2 e).
Proof.
  intros N E. pose proof (binary_normalize_correct 53 1024 prec_gt prec_lt mode_NE n e false) as C. cbv zeta in C.
  change (F2R {| Fnum := n; Fexp := e |}) with (IZR n * bpow radix2 e) in C. change (SpecFloat.fexp 53 1024) with fe in C.
  change (round radix2 fe (round_mode mode_NE) ?x) with (rn x) in C. fold (flit n e) in C.
  rewrite (rn_format _ (format_dyadic n e N ltac:(lia))) in C. rewrite Rlt_bool_true in C; [destruct C as (V & F & _); split; assumption|].
  rewrite Rabs_mult, (Rabs_pos_eq (bpow _ _)) by apply bpow_ge_0. rewrite <- abs_IZR. apply Rle_lt_trans with (bpow radix2 53 * bpow radix2 e).
  - apply Rmult_le_compat_r; [apply bpow_ge_0|]. change (bpow radix2 53) with (IZR (2 ^ 53)). apply IZR_le. exact N.
  - rewrite <- bpow_plus. apply bpow_lt. lia.
Qed.
Lemma of_int_val n : (Z.abs n <= 2 ^ 53)%Z -> val (of_int n) (IZR n).
Proof. intros N. pose proof (flit_val n 0 N ltac:(lia)) as H. cbn [bpow] in H. rewrite Rmult_1_r in H. exact H. Qed.

Lemma fadd_val x y a b : val x a -> val y b -> Rabs (a + b) <= big -> val (fadd x y) (rn (a + b)).
Proof.
  intros [Fx <-] [Fy <-] B. pose proof (Bplus_correct 53 1024 prec_gt prec_lt mode_NE x y Fx Fy) as C.
  change (round radix2 _ (round_mode mode_NE) ?x) with (rn x) in C. rewrite Rlt_bool_true in C by (apply big_max; exact B). destruct C as (V & F & _). split; assumption.
Qed.
Lemma fsub_val x y a b : val x a -> val y b -> Rabs (a - b) <= big -> val (fsub x y) (rn (a - b)).
Proof.
  intros [Fx <-] [Fy <-] B. pose proof (Bminus_correct 53 1024 prec_gt prec_lt mode_NE x y Fx Fy) as C.
  change (round radix2 _ (round_mode mode_NE) ?x) with (rn x) in C. rewrite Rlt_bool_true in C by (apply big_max; exact B). destruct C as (V & F & _). split; assumption.
Qed.
Lemma fmul_val x y a b : val x a -> val y b -> Rabs (a * b) <= big -> val (fmul x y) (rn (a * b)).
Proof.
  intros [Fx <-] [Fy <-] B. pose proof (Bmult_correct 53 1024 prec_gt prec_lt mode_NE x y) as C.
  change (round radix2 _ (round_mode mode_NE) ?x) with (rn x) in C. rewrite Rlt_bool_true in C by (apply big_max; exact B). destruct C as (V & F & _).
  split; [|exact V]. unfold fmul. rewrite F, Fx, Fy. reflexivity.
Qed.
Lemma fzero_val x a : val x a -> a <> 0 -> fzero x = false.
Proof. intros [F E] N. destruct x; try reflexivity. exfalso. apply N. rewrite <- E. reflexivity. Qed.
Lemma fdiv_val x y a b : val x a -> val y b -> b <> 0 -> Rabs (a / b) <= big -> exists z, fdiv x y = Ok z /\ val z (rn (a / b)).
Proof.
  intros Vx Vy N B. unfold fdiv. rewrite (fzero_val y b Vy N). eexists. split; [reflexivity|].
  destruct Vx as [Fx <-], Vy as [Fy <-]. pose proof (Bdiv_correct 53 1024 prec_gt prec_lt mode_NE x y N) as C.
  change (round radix2 _ (round_mode mode_NE) ?x) with (rn x) in C. rewrite Rlt_bool_true in C by (apply big_max; exact B). destruct C as (V & F & _).
  split; [rewrite F; exact Fx|exact V].
Qed.
Lemma flt_val x y a b : val x a -> val y b -> (flt x y = true <-> a < b).
Proof.
  intros [Fx <-] [Fy <-]. unfold flt. rewrite (Bltb_correct _ _ x y Fx Fy). split; [apply Rlt_bool_true_inv || intros H|intros H; apply Rlt_bool_true; exact H].
  destruct (Rlt_bool_spec (B2R x) (B2R y)); [assumption|discriminate].
Qed.
Lemma fle_val x y a b : val x a -> val y b -> (fle x y = true <-> a <= b).
Proof.
  intros [Fx <-] [Fy <-]. unfold fle. rewrite (Bleb_correct _ _ x y Fx Fy). split; [intros H|intros H; apply Rle_bool_true; exact H].
  destruct (Rle_bool_spec (B2R x) (B2R y)); [assumption|discriminate].
Qed.
Lemma feq_val x y a b : val x a -> val y b -> (feq x y = true <-> a = b).
Proof.
  intros [Fx <-] [Fy <-]. unfold feq. rewrite (Beqb_correct _ _ x y Fx Fy). split; [intros H|intros H; apply Req_bool_true; exact H].
  destruct (Req_bool_spec (B2R x) (B2R y)); [assumption|discriminate].
Qed.
Lemma val_fun x a b : val x a -> val x b -> a = b.
Proof. intros [_ <-] [_ <-]. reflexivity. Qed.
Lemma val_format x a : val x a -> rn a = a.
Proof. intros [_ <-]. apply rn_B2R. Qed.

(** Sums and differences of doubles have no underflow error. *)
Lemma rn_plus_err (x y : f64) a b : val x a -> val y b -> Rabs (rn (a + b) - (a + b)) <= u * Rabs (a + b).
Proof.
  intros [_ <-] [_ <-]. destruct (Req_dec (B2R x + B2R y) 0) as [Z|NZ]; [apply rn_err; left; exact Z|].
  destruct (Rle_or_lt small (Rabs (B2R x + B2R y))) as [H|H]; [apply rn_err; right; exact H|].
  (* below the smallest normal number a sum is exact *)
  assert (E : rn (B2R x + B2R y) = B2R x + B2R y).
  { apply rn_format. rewrite fe_FLT. apply (@FLT_format_plus_small radix2 (-1074) 53 prec_gt (B2R x) (B2R y)); try (rewrite <- fe_FLT; apply B2R_format).
    apply Rlt_le. apply Rlt_le_trans with (1 := H). apply bpow_le. lia. }
  rewrite E, Rminus_diag_eq, Rabs_R0 by reflexivity. apply Rmult_le_pos; [apply bpow_ge_0|apply Rabs_pos].
Qed.
Lemma rn_minus_err (x y : f64) a b : val x a -> val y b -> Rabs (rn (a - b) - (a - b)) <= u * Rabs (a - b).
Proof.
  intros [Fx <-] [Fy <-]. pose proof (rn_plus_err x (Bopp y) (B2R x) (- B2R y)) as H. apply H; split; auto; [rewrite is_finite_Bopp; exact Fy|apply B2R_Bopp].
Qed.
