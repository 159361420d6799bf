(** Property theorems C91 (present values in floating point). *)
From Verif Require Import Base PyDate PyList CurveFacts Float FloatFacts P_FloatDayCount FloatKeyRate P_FloatKeyRate FloatCashflow.
From Coq Require Import Reals Lra Permutation.
From Flocq Require Import Core BinarySingleNaN.
Open Scope Z_scope.

(** ---- specification ---- *)
(** exact sums *)
Definition sumR (l : list R) : R := fold_right Rplus 0%R l.
Definition sum_abs (l : list R) : R := sumR (List.map Rabs l).
(** The payments that count: with an amount, on or after the reference date. *)
Definition received (ref : date) (c : list f_payment) : list (date * f64) :=
  flat_map (fun p => match fp_amount p with Some a => if ref <=? fp_date p then [(fp_date p, a)] else [] | None => [] end) c.
(** Products of two finite doubles that neither overflow nor underflow. *)
Definition product_ok (x y : f64) : Prop := is_finite x = true /\ is_finite y = true /\
  (B2R x * B2R y = 0 \/ bpow radix2 (-900) <= Rabs (B2R x * B2R y) <= bpow radix2 800)%R.

(** ---- sums ---- *)
Lemma sumR_app a b : sumR (a ++ b) = (sumR a + sumR b)%R.
Proof. unfold sumR. induction a as [|x a IH]; cbn; [lra|]. rewrite IH. lra. Qed.
Lemma sum_abs_pos l : (0 <= sum_abs l)%R.
Proof. unfold sum_abs, sumR. induction l as [|x l IH]; cbn; [lra|]. pose proof (Rabs_pos x). lra. Qed.
Lemma sum_abs_ge l : (Rabs (sumR l) <= sum_abs l)%R.
Proof. unfold sum_abs, sumR. induction l as [|x l IH]; cbn; [rewrite Rabs_R0; lra|]. apply Rle_trans with (1 := Rabs_triang _ _). lra. Qed.
Lemma sumR_perm l l' : Permutation l l' -> sumR l = sumR l'.
Proof. unfold sumR. induction 1; cbn in *; lra. Qed.

Lemma u_tiny : (0 < u <= / 1000000000000000)%R.
Proof. split; [apply u_small|]. unfold u. change (bpow radix2 (-53)) with (/ 9007199254740992)%R. lra. Qed.

Definition terms (xs : list f64) (vs : list R) : Prop := Forall2 val xs vs.

(** one addition *)
Lemma add_ok x y a b : val x a -> val y b -> (Rabs (a + b) <= big)%R -> exists c, val (fadd x y) c /\ (Rabs (c - (a + b)) <= u * Rabs (a + b))%R.
Proof. intros X Y B. exists (rn (a + b)). split; [apply fadd_val; assumption|apply (rn_plus_err x y); assumption]. Qed.
Lemma sub_ok x y a b : val x a -> val y b -> (Rabs (a - b) <= big)%R -> exists c, val (fsub x y) c /\ (Rabs (c - (a - b)) <= u * Rabs (a - b))%R.
Proof. intros X Y B. exists (rn (a - b)). split; [apply fsub_val; assumption|apply (rn_minus_err x y); assumption]. Qed.

(** size and number of the terms so far; [M] bounds the sum of their absolute values *)
Definition M : R := bpow radix2 900.
Lemma M_big : (16 * M <= big)%R.
Proof. unfold M, big. replace (bpow radix2 1000) with (bpow radix2 100 * bpow radix2 900)%R by (rewrite <- bpow_plus; reflexivity). apply Rmult_le_compat_r; [apply bpow_ge_0|]. change 16%R with (bpow radix2 4). apply bpow_le. lia. Qed.

(** invariant after k terms with exact sum s and absolute sum a *)
Definition close (k : Z) (s a : R) (x : f64) : Prop := exists v, val x v /\ (Rabs (v - s) <= 2 * IZR k * u * a)%R.
Lemma close_size k s a v : (0 <= k <= 2 ^ 30)%Z -> (0 <= a -> Rabs s <= a -> Rabs (v - s) <= 2 * IZR k * u * a -> Rabs v <= 1.001 * a)%R.
Proof.
  intros K A Sa H. assert (Ku : (2 * IZR k * u <= 0.001)%R). { pose proof u_tiny as U. assert (IZR k <= 1073741824)%R by (apply IZR_le; lia). assert (0 <= IZR k)%R by (apply IZR_le; lia). nra. }
  replace v with ((v - s) + s)%R by ring. apply Rle_trans with (1 := Rabs_triang _ _). nra.
Qed.
Lemma close_step k s a x y b : (0 <= k < 2 ^ 30)%Z -> (Rabs s <= a)%R -> (a + Rabs b <= M)%R -> close k s a x -> val y b -> close (k + 1) (s + b) (a + Rabs b) (fadd x y).
Proof.
  intros K Sa Am (v & V & E) Y. pose proof u_tiny as U. pose proof M_big as MB. pose proof (Rabs_pos b) as Pb. assert (A0 : (0 <= a)%R) by (pose proof (Rabs_pos s); lra).
  pose proof (close_size k s a v ltac:(lia) A0 Sa E) as Sv.
  assert (Vb : (Rabs (v + b) <= 1.001 * a + Rabs b)%R) by (apply Rle_trans with (1 := Rabs_triang _ _); lra).
  destruct (add_ok x y v b V Y ltac:(lra)) as (c & C & Ec). exists c. split; [exact C|].
  replace (c - (s + b))%R with ((c - (v + b)) + (v - s))%R by ring. apply Rle_trans with (1 := Rabs_triang _ _). rewrite plus_IZR.
  assert (u * Rabs (v + b) <= u * (1.001 * a + Rabs b))%R by (apply Rmult_le_compat_l; lra).
  assert (0 <= IZR k * u * Rabs b)%R by (apply Rmult_le_pos; [apply Rmult_le_pos; [apply IZR_le; lia|lra]|lra]). assert (0 <= u * a)%R by nra. assert (0 <= u * Rabs b)%R by nra. lra.
Qed.
Lemma sum_close xs : forall vs k s a x, terms xs vs -> (0 <= k)%Z -> (k + Z.of_nat (List.length xs) <= 2 ^ 30)%Z -> (Rabs s <= a)%R -> (a + sum_abs vs <= M)%R -> close k s a x ->
  close (k + Z.of_nat (List.length xs)) (s + sumR vs) (a + sum_abs vs) (fold_left fadd xs x).
Proof.
  induction xs as [|y xs IH]; intros vs k s a x T K L Sa Am C; inversion T as [|? b ? vs' Vy T']; subst.
  - cbn [fold_left List.length sumR sum_abs List.map fold_right Z.of_nat]. unfold sum_abs, sumR. cbn. rewrite Z.add_0_r, !Rplus_0_r. exact C.
  - change (sum_abs (b :: vs')) with (Rabs b + sum_abs vs')%R in *. change (sumR (b :: vs')) with (b + sumR vs')%R. cbn [fold_left List.length]. cbn [List.length] in L.
    pose proof (sum_abs_pos vs') as Pa. rewrite Nat2Z.inj_succ in *. replace (k + Z.succ (Z.of_nat (List.length xs)))%Z with (k + 1 + Z.of_nat (List.length xs))%Z by lia.
    replace (s + (b + sumR vs'))%R with ((s + b) + sumR vs')%R by ring. replace (a + (Rabs b + sum_abs vs'))%R with ((a + Rabs b) + sum_abs vs')%R by ring.
    apply IH; [exact T'|lia|lia|apply Rle_trans with (1 := Rabs_triang _ _); lra|lra|]. apply close_step; [lia|exact Sa|lra|exact C|exact Vy].
Qed.

(** one compensated step *)
Lemma abs_le x y a b : val x a -> val y b -> fle (@Babs 53 1024 x) (@Babs 53 1024 y) = true <-> (Rabs a <= Rabs b)%R.
Proof.
  intros [Fx Ex] [Fy Ey]. apply fle_val; (split; [rewrite is_finite_Babs; assumption|rewrite B2R_Babs; congruence]).
Qed.
Lemma error_term x y s a b c : val x a -> val y b -> val s c -> (Rabs (c - (a + b)) <= u * Rabs (a + b))%R -> (Rabs a + Rabs b <= 4 * M)%R ->
  exists e, val (fadd (fsub x s) y) e /\ (Rabs e <= 4 * u * (Rabs a + Rabs b))%R.
Proof.
  intros X Y Sc E B. pose proof u_tiny as U. pose proof M_big as MB. pose proof (Rabs_triang a b) as T. pose proof (Rabs_pos a). pose proof (Rabs_pos b). assert (W0 : (0 <= Rabs a + Rabs b)%R) by lra. set (w := (Rabs a + Rabs b)%R) in *.
  assert (Ew : (Rabs (c - (a + b)) <= u * w)%R) by (apply Rle_trans with (1 := E); apply Rmult_le_compat_l; lra). assert (uw : (0 <= u * w <= w / 1000)%R) by (split; [apply Rmult_le_pos; lra|apply Rle_trans with (/ 1000 * w)%R; [apply Rmult_le_compat_r; lra|lra]]).
  assert (D1 : (Rabs (a - c) <= 1.001 * w)%R). { replace (a - c)%R with (- (c - (a + b)) + - b)%R by ring. apply Rle_trans with (1 := Rabs_triang _ _). rewrite !Rabs_Ropp. unfold w in *. lra. }
  destruct (sub_ok x s a c X Sc ltac:(lra)) as (d & D & Ed). assert (Ed' : (Rabs (d - (a - c)) <= u * (1.001 * w))%R) by (apply Rle_trans with (1 := Ed); apply Rmult_le_compat_l; lra).
  assert (D2 : (Rabs (d + b) <= 2.01 * u * w)%R). { replace (d + b)%R with ((d - (a - c)) + - (c - (a + b)))%R by ring. apply Rle_trans with (1 := Rabs_triang _ _). rewrite Rabs_Ropp. lra. }
  destruct (add_ok _ _ d b D Y ltac:(lra)) as (e & Ve & Ee). exists e. split; [exact Ve|]. replace e with ((e - (d + b)) + (d + b))%R by ring. apply Rle_trans with (1 := Rabs_triang _ _).
  assert (u * Rabs (d + b) <= 1 / 1000 * Rabs (d + b))%R by (apply Rmult_le_compat_r; [apply Rabs_pos|lra]). lra.
Qed.
Definition close2 (k : Z) (s a : R) (t : f64 * f64) : Prop := close k s a (fst t) /\ exists l, val (snd t) l /\ (Rabs l <= 16 * IZR k * u * a)%R.
Lemma close2_step k s a t y b : (0 <= k < 2 ^ 30)%Z -> (Rabs s <= a)%R -> (a + Rabs b <= M)%R -> close2 k s a t -> val y b -> close2 (k + 1) (s + b) (a + Rabs b) (cs_add t y).
Proof.
  intros K Sa Am [C (l & Vl & El)] Y. pose proof (close_step k s a (fst t) y b K Sa Am C Y) as C'. destruct t as [hi lo]. cbn [fst snd] in *. destruct C as (v & V & E).
  pose proof u_tiny as U. pose proof M_big as MB. pose proof (Rabs_pos b) as Pb. assert (A0 : (0 <= a)%R) by (pose proof (Rabs_pos s); lra). pose proof (close_size k s a v ltac:(lia) A0 Sa E) as Sv. pose proof (Rabs_pos v) as Pv.
  assert (Vb : (Rabs (v + b) <= 1.001 * a + Rabs b)%R) by (apply Rle_trans with (1 := Rabs_triang _ _); lra).
  destruct (add_ok hi y v b V Y ltac:(lra)) as (c & Vc & Ec).
  assert (Ex : exists e, val (if fle (@Babs 53 1024 y) (@Babs 53 1024 hi) then fadd (fsub hi (fadd hi y)) y else fadd (fsub y (fadd hi y)) hi) e /\ (Rabs e <= 4 * u * (Rabs v + Rabs b))%R).
  { destruct (fle _ _); [apply (error_term hi y (fadd hi y) v b c); auto; lra|]. rewrite (Rplus_comm (Rabs v)). apply (error_term y hi (fadd hi y) b v c); auto; [rewrite (Rplus_comm b); exact Ec|lra]. }
  destruct Ex as (e & Ve & Ee). unfold cs_add. split; [exact C'|]. cbn [snd].
  assert (Kr : (0 <= IZR k <= 1073741824)%R) by (split; apply IZR_le; lia). set (A := (a + Rabs b)%R) in *. assert (LA : (a <= A)%R) by (unfold A; lra).
  assert (El' : (Rabs l <= 16 * IZR k * u * A)%R) by (apply Rle_trans with (1 := El); apply Rmult_le_compat_l; [apply Rmult_le_pos; lra|exact LA]).
  assert (Ee' : (Rabs e <= 4.01 * u * A)%R). { apply Rle_trans with (1 := Ee). replace (4 * u * (Rabs v + Rabs b))%R with (u * (4 * (Rabs v + Rabs b)))%R by ring. replace (4.01 * u * A)%R with (u * (4.01 * A))%R by ring. apply Rmult_le_compat_l; [lra|]. unfold A. lra. }
  assert (ku : (IZR k * u <= 1 / 100000)%R) by nra. assert (kA : (0 <= IZR k * u * A <= A / 100000)%R) by (split; [apply Rmult_le_pos; [apply Rmult_le_pos; lra|lra]|apply Rle_trans with (1 / 100000 * A)%R; [apply Rmult_le_compat_r; lra|lra]]). assert (uA : (0 <= u * A <= A / 100000)%R) by (split; nra).
  assert (Le : (Rabs (l + e) <= 16 * IZR k * u * A + 4.01 * u * A)%R) by (apply Rle_trans with (1 := Rabs_triang _ _); lra).
  destruct (add_ok lo _ l e Vl Ve ltac:(lra)) as (m & Vm & Em). exists m. split; [exact Vm|]. replace m with ((m - (l + e)) + (l + e))%R by ring. apply Rle_trans with (1 := Rabs_triang _ _). rewrite plus_IZR.
  assert (u * Rabs (l + e) <= u * (16 * IZR k * u * A + 4.01 * u * A))%R by (apply Rmult_le_compat_l; lra). assert (u * (16 * IZR k * u * A + 4.01 * u * A) <= u * A)%R by (apply Rmult_le_compat_l; lra). lra.
Qed.
Lemma sum_close2 xs : forall vs k s a t, terms xs vs -> (0 <= k)%Z -> (k + Z.of_nat (List.length xs) <= 2 ^ 30)%Z -> (Rabs s <= a)%R -> (a + sum_abs vs <= M)%R -> close2 k s a t ->
  close2 (k + Z.of_nat (List.length xs)) (s + sumR vs) (a + sum_abs vs) (fold_left cs_add xs t).
Proof.
  induction xs as [|y xs IH]; intros vs k s a x T K L Sa Am C; inversion T as [|? b ? vs' Vy T']; subst.
  - cbn [fold_left List.length Z.of_nat]. unfold sum_abs, sumR. cbn. rewrite Z.add_0_r, !Rplus_0_r. exact C.
  - change (sum_abs (b :: vs')) with (Rabs b + sum_abs vs')%R in *. change (sumR (b :: vs')) with (b + sumR vs')%R. cbn [fold_left List.length]. cbn [List.length] in L.
    pose proof (sum_abs_pos vs') as Pa. rewrite Nat2Z.inj_succ in *. replace (k + Z.succ (Z.of_nat (List.length xs)))%Z with (k + 1 + Z.of_nat (List.length xs))%Z by lia.
    replace (s + (b + sumR vs'))%R with ((s + b) + sumR vs')%R by ring. replace (a + (Rabs b + sum_abs vs'))%R with ((a + Rabs b) + sum_abs vs')%R by ring.
    apply IH; [exact T'|lia|lia|apply Rle_trans with (1 := Rabs_triang _ _); lra|lra|]. apply close2_step; [lia|exact Sa|lra|exact C|exact Vy].
Qed.

(** both ways of adding up *)
Lemma total_close total xs vs : either_sum total -> terms xs vs -> (Z.of_nat (List.length xs) <= 2 ^ 30)%Z -> (sum_abs vs <= M)%R ->
  exists v, val (total xs) v /\ (Rabs (v - sumR vs) <= 24 * INR (List.length xs) * u * sum_abs vs)%R.
Proof.
  intros ES T L Am. pose proof u_tiny as U. pose proof (sum_abs_pos vs) as Pa. pose proof M_big as MB. assert (C0 : close 0 0 0 (of_int 0)) by (exists 0%R; split; [apply zero_val|rewrite Rminus_0_r, Rabs_R0; lra]).
  rewrite INR_IZR_INZ. set (n := Z.of_nat (List.length xs)) in *. assert (Nr : (0 <= IZR n <= 1073741824)%R) by (split; apply IZR_le; unfold n; lia).
  assert (Na : (0 <= IZR n * u * sum_abs vs)%R) by (apply Rmult_le_pos; [apply Rmult_le_pos; lra|exact Pa]).
  destruct ES as [-> | ->].
  - pose proof (sum_close xs vs 0 0 0 (of_int 0) T ltac:(lia) ltac:(lia) ltac:(rewrite Rabs_R0; lra) ltac:(lra) C0) as (v & V & E). rewrite Z.add_0_l, !Rplus_0_l in E. fold n in E. exists v. split; [exact V|]. lra.
  - assert (C2 : close2 0 0 0 (of_int 0, of_int 0)). { split; [exact C0|]. exists 0%R. split; [apply zero_val|rewrite Rabs_R0; lra]. }
    pose proof (sum_close2 xs vs 0 0 0 _ T ltac:(lia) ltac:(lia) ltac:(rewrite Rabs_R0; lra) ltac:(lra) C2) as [(v & V & E) (l & Vl & El)]. rewrite Z.add_0_l, !Rplus_0_l in *. fold n in E, El.
    unfold f_sum_compensated. destruct (fold_left cs_add xs (of_int 0, of_int 0)) as [hi lo]. cbn [fst snd] in *.
    destruct (negb (fzero lo) && is_finite lo) eqn:B; [|exists v; split; [exact V|lra]].
    assert (N1 : (1 <= IZR n)%R \/ sum_abs vs = 0%R). { destruct xs as [|y xs']; [right; inversion T; reflexivity|left; apply IZR_le; unfold n; cbn [List.length]; lia]. }
    pose proof (close_size n (sumR vs) (sum_abs vs) v ltac:(unfold n; lia) Pa (sum_abs_ge vs) E) as Sv.
    assert (ku : (IZR n * u <= 1 / 100000)%R) by nra. assert (kA : (IZR n * u * sum_abs vs <= sum_abs vs / 100000)%R) by (apply Rle_trans with (1 / 100000 * sum_abs vs)%R; [apply Rmult_le_compat_r; lra|lra]).
    assert (Vl' : (Rabs (v + l) <= 1.01 * sum_abs vs)%R) by (apply Rle_trans with (1 := Rabs_triang _ _); lra).
    destruct (add_ok hi lo v l V Vl ltac:(lra)) as (w & Vw & Ew). exists w. split; [exact Vw|]. replace (w - sumR vs)%R with ((w - (v + l)) + ((v - sumR vs) + l))%R by ring. apply Rle_trans with (1 := Rabs_triang _ _). pose proof (Rabs_triang (v - sumR vs) l) as T2.
    assert (u * Rabs (v + l) <= u * (1.01 * sum_abs vs))%R by (apply Rmult_le_compat_l; lra).
    assert (u * sum_abs vs <= IZR n * u * sum_abs vs)%R. { destruct N1 as [N1|N1]; [|rewrite N1; lra]. rewrite Rmult_assoc. assert (0 <= u * sum_abs vs)%R by (apply Rmult_le_pos; lra). nra. }
    lra.
Qed.

(** ---- C91 ---- *)
(** The exact worth of a payment and of a position, from the discount factors and present values the program sees. *)
Definition worth (dc : f_discount) (p : date * f64) : R := match fd_call dc (fst p) with Ok df => (B2R df * B2R (snd p))%R | Err _ => 0%R end.
Definition position (dc : f_discount) (e : f_entry) : R := match fe_pv e dc with Ok v => (B2R (fe_quantity e) * B2R v)%R | Err _ => 0%R end.

Lemma product_val x y : product_ok x y -> exists v, val (fmul x y) v /\ (Rabs (v - B2R x * B2R y) <= u * Rabs (B2R x * B2R y))%R /\ (Rabs (B2R x * B2R y) <= bpow radix2 800)%R.
Proof.
  intros (Fx & Fy & R). assert (B : (Rabs (B2R x * B2R y) <= bpow radix2 800)%R) by (destruct R as [-> | R]; [rewrite Rabs_R0; apply bpow_ge_0|apply R]).
  exists (rn (B2R x * B2R y)). split; [apply fmul_val; [split; auto|split; auto|apply Rle_trans with (1 := B); apply bpow_le; lia]|]. split; [|exact B].
  apply rn_err. destruct R as [R|R]; [left; exact R|right; apply Rle_trans with (2 := proj1 R); apply bpow_le; lia].
Qed.

Lemma scaled {A} (f : A -> f64) (w : A -> R) (l : list A) : (forall a, In a l -> exists v, val (f a) v /\ (Rabs (v - w a) <= u * Rabs (w a))%R /\ (Rabs (w a) <= bpow radix2 800)%R) ->
  exists vs, terms (List.map f l) vs /\ (Rabs (sumR vs - sumR (List.map w l)) <= u * sum_abs (List.map w l))%R /\ (sum_abs vs <= 2 * sum_abs (List.map w l))%R /\ (sum_abs (List.map w l) <= INR (List.length l) * bpow radix2 800)%R.
Proof.
  pose proof u_tiny as U. induction l as [|a l IH]; intros H.
  - exists []. split; [constructor|]. unfold sum_abs, sumR. cbn. rewrite Rminus_0_r, Rabs_R0. lra.
  - destruct (H a ltac:(left; reflexivity)) as (v & V & E & B). destruct IH as (vs & T & S1 & S2 & S3); [intros b Hb; apply H; right; exact Hb|].
    exists (v :: vs). split; [constructor; auto|]. cbn [List.map List.length]. change (sum_abs (w a :: List.map w l)) with (Rabs (w a) + sum_abs (List.map w l))%R. change (sumR (w a :: List.map w l)) with (w a + sumR (List.map w l))%R.
    change (sum_abs (v :: vs)) with (Rabs v + sum_abs vs)%R. change (sumR (v :: vs)) with (v + sumR vs)%R. rewrite S_INR.
    split; [replace (v + sumR vs - (w a + sumR (List.map w l)))%R with ((v - w a) + (sumR vs - sumR (List.map w l)))%R by ring; apply Rle_trans with (1 := Rabs_triang _ _); lra|].
    split; [|lra]. assert (Rabs v <= 2 * Rabs (w a))%R; [|lra]. replace v with ((v - w a) + w a)%R by ring. apply Rle_trans with (1 := Rabs_triang _ _). pose proof (Rabs_pos (w a)). nra.
Qed.

Lemma few_big n : (n <= 2 ^ 30)%Z -> (0 <= n)%Z -> (2 * (IZR n * bpow radix2 800) <= M)%R.
Proof.
  intros L P. unfold M. replace (bpow radix2 900) with (bpow radix2 100 * bpow radix2 800)%R by (rewrite <- bpow_plus; reflexivity). rewrite <- Rmult_assoc. apply Rmult_le_compat_r; [apply bpow_ge_0|].
  apply Rle_trans with (bpow radix2 31); [change (bpow radix2 31) with (2147483648)%R; assert (IZR n <= 1073741824)%R by (apply IZR_le; exact L); lra|apply bpow_le; lia].
Qed.

(** the rounding of products and of the sum together *)
Lemma scaled_total {A} total (f : A -> f64) (w : A -> R) (l : list A) : either_sum total -> (Z.of_nat (List.length l) <= 2 ^ 30)%Z ->
  (forall a, In a l -> exists v, val (f a) v /\ (Rabs (v - w a) <= u * Rabs (w a))%R /\ (Rabs (w a) <= bpow radix2 800)%R) ->
  exists v, val (total (List.map f l)) v /\ (Rabs (v - sumR (List.map w l)) <= (INR (List.length l) + 1) / 2 ^ 47 * sum_abs (List.map w l))%R /\ (Rabs v <= 3 * M)%R /\ (sum_abs (List.map w l) <= M)%R.
Proof.
  intros ES L H. pose proof u_tiny as U. destruct (scaled f w l H) as (vs & T & S1 & S2 & S3). pose proof (few_big _ L ltac:(lia)) as FB. rewrite <- INR_IZR_INZ in FB.
  set (A0 := sum_abs (List.map w l)) in *. assert (PA : (0 <= A0)%R) by apply sum_abs_pos. assert (Nm : List.length (List.map f l) = List.length l) by apply map_length.
  destruct (total_close total (List.map f l) vs ES T ltac:(rewrite Nm; exact L) ltac:(lra)) as (v & V & E). rewrite Nm in E. exists v. split; [exact V|].
  set (n := INR (List.length l)) in *. assert (Pn : (0 <= n)%R) by apply pos_INR. assert (E' : (Rabs (v - sumR vs) <= 48 * n * u * A0)%R).
  { apply Rle_trans with (1 := E). replace (48 * n * u * A0)%R with (24 * n * u * (2 * A0))%R by ring. apply Rmult_le_compat_l; [apply Rmult_le_pos; [apply Rmult_le_pos; lra|lra]|exact S2]. }
  assert (U47 : (/ 2 ^ 47 = 64 * u)%R) by (unfold u; change (bpow radix2 (-53)) with (/ 9007199254740992)%R; lra). unfold Rdiv. rewrite U47.
  assert (NA : (0 <= n * u * A0)%R) by (apply Rmult_le_pos; [apply Rmult_le_pos; lra|exact PA]). assert (uA : (0 <= u * A0)%R) by (apply Rmult_le_pos; lra).
  assert (Er : (Rabs (v - sumR (List.map w l)) <= 48 * n * u * A0 + u * A0)%R). { replace (v - sumR (List.map w l))%R with ((v - sumR vs) + (sumR vs - sumR (List.map w l)))%R by ring. apply Rle_trans with (1 := Rabs_triang _ _). lra. }
  split; [replace ((n + 1) * (64 * u) * A0)%R with (64 * (n * u * A0) + 64 * (u * A0))%R by ring; lra|]. split; [|lra].
  assert (Nb : (n <= 1073741824)%R) by (unfold n; rewrite INR_IZR_INZ; apply IZR_le; exact L). assert (nu : (n * u <= 1 / 100000)%R) by nra. assert (nA : (n * u * A0 <= 1 / 100000 * A0)%R) by (apply Rmult_le_compat_r; lra). assert (uA' : (u * A0 <= 1 / 100000 * A0)%R) by (apply Rmult_le_compat_r; lra).
  replace v with ((v - sumR (List.map w l)) + sumR (List.map w l))%R by ring. apply Rle_trans with (1 := Rabs_triang _ _). pose proof (sum_abs_ge (List.map w l)) as G. fold A0 in G. lra.
Qed.

Lemma pv_terms_ok dc c : (forall p, In p (received (fd_ref dc) c) -> exists df, fd_call dc (fst p) = Ok df) ->
  f_pv_terms c dc = Ok (List.map (fun p => fmul (ok_or (fd_call dc (fst p))) (snd p)) (received (fd_ref dc) c)).
Proof.
  induction c as [|[d [a|]] c IH]; intros H; [reflexivity| |exact (IH H)]. cbn [f_pv_terms received flat_map fp_amount fp_date] in *. destruct (fd_ref dc <=? d); [|exact (IH H)].
  destruct (H (d, a) ltac:(left; reflexivity)) as (df & E). cbn [fst] in E. rewrite E. cbn [bind]. rewrite IH by (intros p Hp; apply H; right; exact Hp). cbn [bind app List.map fst snd]. rewrite E. reflexivity.
Qed.

(** Present value of a cashflow: how far the float is from the exact sum of discount factor times amount over the payments that count. *)
Theorem C91_present_value : forall total c dc, either_sum total -> (Z.of_nat (List.length c) <= 2 ^ 30)%Z ->
  (forall p, In p (received (fd_ref dc) c) -> exists df, fd_call dc (fst p) = Ok df /\ product_ok df (snd p)) ->
  exists x, f_cf_present_value total c dc = Ok x /\ is_finite x = true /\
    (let l := received (fd_ref dc) c in Rabs (B2R x - sumR (List.map (worth dc) l)) <= (INR (List.length l) + 1) / 2 ^ 47 * sum_abs (List.map (worth dc) l))%R.
Proof.
  intros total c dc ES L H. assert (Lr : (List.length (received (fd_ref dc) c) <= List.length c)%nat).
  { clear H L. unfold received. induction c as [|[d [a|]] c IH]; cbn; [lia| |lia]. destruct (fd_ref dc <=? d); cbn; lia. }
  unfold f_cf_present_value. rewrite (pv_terms_ok dc c) by (intros p Hp; destruct (H p Hp) as (df & E & _); eauto). cbn [bind].
  destruct (scaled_total total (fun p => fmul (ok_or (fd_call dc (fst p))) (snd p)) (worth dc) (received (fd_ref dc) c) ES ltac:(lia)) as (v & V & E & _).
  { intros p Hp. destruct (H p Hp) as (df & Ed & P). unfold worth. rewrite Ed. cbn [ok_or]. apply product_val. exact P. }
  eexists. split; [reflexivity|]. destruct V as [F <-]. split; [exact F|exact E].
Qed.
Print Assumptions C91_present_value.

(** It raises exactly when some discount factor it needs raises, then with the exception of the first. *)
Theorem C91_raises : forall total c dc e, f_cf_present_value total c dc = Err e <->
  exists before p after, received (fd_ref dc) c = before ++ p :: after /\ fd_call dc (fst p) = Err e /\ forall q, In q before -> exists df, fd_call dc (fst q) = Ok df.
Proof.
  intros total c dc e. assert (G : f_pv_terms c dc = Err e <-> exists before p after, received (fd_ref dc) c = before ++ p :: after /\ fd_call dc (fst p) = Err e /\ forall q, In q before -> exists df, fd_call dc (fst q) = Ok df).
  { induction c as [|[d [a|]] c IH].
    - cbn. split; [discriminate|]. intros (b & p & r & E & _). destruct b; discriminate.
    - cbn [f_pv_terms received flat_map fp_amount fp_date]. destruct (fd_ref dc <=? d); [|exact IH]. fold (received (fd_ref dc) c). destruct (fd_call dc d) as [df|e'] eqn:E; cbn [bind app].
      + destruct (f_pv_terms c dc) as [ts|e'] eqn:Et; cbn [bind].
        * split; [discriminate|]. intros (b & p & r & Q & X & Y). destruct b as [|q b]; cbn in Q; injection Q as <- Q; [cbn in X; congruence|]. destruct IH as [_ IH]. discriminate IH. exists b, p, r. split; [exact Q|]. split; [exact X|]. intros z Hz. apply Y. right. exact Hz.
        * split.
          -- intros [= ->]. destruct (proj1 IH eq_refl) as (b & p & r & Q & X & Y). exists ((d, a) :: b), p, r. split; [cbn; rewrite Q; reflexivity|]. split; [exact X|]. intros z [<- | Hz]; [exists df; exact E|auto].
          -- intros (b & p & r & Q & X & Y). destruct b as [|q b]; cbn in Q; injection Q as <- Q; [cbn in X; congruence|]. f_equal. assert (Err e' = Err e :> res (list f64)) as [= ->]; [|reflexivity]. apply IH. exists b, p, r. split; [exact Q|]. split; [exact X|]. intros z Hz. apply Y. right. exact Hz.
      + split.
        * intros [= ->]. exists [], (d, a), (received (fd_ref dc) c). split; [reflexivity|]. split; [exact E|intros z []].
        * intros (b & p & r & Q & X & Y). destruct b as [|q b]; cbn in Q; injection Q as <- Q; [cbn in X; congruence|]. destruct (Y (d, a) ltac:(left; reflexivity)) as (df & D). cbn in D. congruence.
    - exact IH. }
  rewrite <- G. unfold f_cf_present_value. destruct (f_pv_terms c dc); cbn [bind]; split; intros H; try discriminate; congruence.
Qed.
Print Assumptions C91_raises.

(** Present value of a portfolio. *)
Definition pf_ok (l : list f_entry) (cash : f64) (dc : f_discount) : Prop := (Z.of_nat (List.length l) <= 2 ^ 30)%Z /\ is_finite cash = true /\ (Rabs (B2R cash) <= bpow radix2 800)%R /\
  forall e, In e l -> exists v, fe_pv e dc = Ok v /\ product_ok (fe_quantity e) v.
(** exact value, and the scale of the error *)
Definition exact_value (l : list f_entry) (cash : f64) (dc : f_discount) : R := (sumR (List.map (position dc) l) + B2R cash)%R.
Definition gross_value (l : list f_entry) (cash : f64) (dc : f_discount) : R := (sum_abs (List.map (position dc) l) + Rabs (B2R cash))%R.
Theorem C91_portfolio : forall total l cash dc, either_sum total -> pf_ok l cash dc ->
  exists x, f_pf_present_value total l cash dc = Ok x /\ is_finite x = true /\
    (Rabs (B2R x - exact_value l cash dc) <= (INR (List.length l) + 2) / 2 ^ 46 * gross_value l cash dc)%R.
Proof.
  intros total l cash dc ES (L & Fc & Bc & H). pose proof u_tiny as U. pose proof M_big as MB. assert (M0 : (0 <= M)%R) by apply bpow_ge_0.
  assert (Em : mapM (fun e => do v <- fe_pv e dc; Ok (fmul (fe_quantity e) v)) l = Ok (List.map (fun e => fmul (fe_quantity e) (ok_or (fe_pv e dc))) l)).
  { clear L. induction l as [|e l IH]; [reflexivity|]. cbn [mapM List.map]. destruct (H e ltac:(left; reflexivity)) as (v & E & _). rewrite E. cbn [bind ok_or]. rewrite IH by (intros z Hz; apply H; right; exact Hz). reflexivity. }
  unfold f_pf_present_value. rewrite Em. cbn [bind].
  destruct (scaled_total total (fun e => fmul (fe_quantity e) (ok_or (fe_pv e dc))) (position dc) l ES L) as (v & V & E & Bv & Bw).
  { intros e He. destruct (H e He) as (pv & Ed & P). unfold position. rewrite Ed. cbn [ok_or]. apply product_val. exact P. }
  assert (M8 : (bpow radix2 800 <= M)%R) by (apply bpow_le; lia). pose proof (Rabs_triang v (B2R cash)) as Tr.
  destruct (add_ok (total (List.map (fun e => fmul (fe_quantity e) (ok_or (fe_pv e dc))) l)) cash v (B2R cash) V (conj Fc eq_refl) ltac:(lra)) as (x & Vx & Ex).
  eexists. split; [reflexivity|]. destruct Vx as [Fx <-]. split; [exact Fx|]. set (X := B2R (fadd _ cash)) in *. unfold exact_value, gross_value. set (S0 := sumR (List.map (position dc) l)) in *. set (A0 := sum_abs (List.map (position dc) l)) in *. set (k := B2R cash) in *.
  assert (PA : (0 <= A0)%R) by apply sum_abs_pos. assert (G : (Rabs S0 <= A0)%R) by apply sum_abs_ge. set (n := INR (List.length l)) in *. assert (Pn : (0 <= n)%R) by apply pos_INR. pose proof (Rabs_pos k) as Pk.
  assert (U47 : (/ 2 ^ 47 = 64 * u)%R) by (unfold u; change (bpow radix2 (-53)) with (/ 9007199254740992)%R; lra). assert (U46 : (/ 2 ^ 46 = 128 * u)%R) by (unfold u; change (bpow radix2 (-53)) with (/ 9007199254740992)%R; lra). unfold Rdiv in *. rewrite U47 in E. rewrite U46.
  assert (Nb : (n <= 1073741824)%R) by (unfold n; rewrite INR_IZR_INZ; apply IZR_le; exact L). assert (nu : (n * u <= 1 / 100000)%R) by nra.
  assert (NA : (0 <= n * u * A0 <= 1 / 100000 * A0)%R) by (split; [apply Rmult_le_pos; [apply Rmult_le_pos; lra|exact PA]|apply Rmult_le_compat_r; lra]). assert (uA : (0 <= u * A0 <= 1 / 100000 * A0)%R) by (split; [apply Rmult_le_pos; lra|apply Rmult_le_compat_r; lra]).
  replace ((n + 1) * (64 * u) * A0)%R with (64 * (n * u * A0) + 64 * (u * A0))%R in E by ring.
  assert (Sv : (Rabs v <= 1.01 * A0)%R). { replace v with ((v - S0) + S0)%R by ring. apply Rle_trans with (1 := Rabs_triang _ _). lra. }
  assert (uK : (0 <= u * Rabs k)%R) by (apply Rmult_le_pos; lra). assert (nK : (0 <= n * u * Rabs k)%R) by (apply Rmult_le_pos; [apply Rmult_le_pos; lra|exact Pk]).
  assert (u * Rabs (v + k) <= u * (1.01 * A0 + Rabs k))%R by (apply Rmult_le_compat_l; lra).
  replace (X - (S0 + k))%R with ((X - (v + k)) + (v - S0))%R by ring. apply Rle_trans with (1 := Rabs_triang _ _).
  replace ((n + 2) * (128 * u) * (A0 + Rabs k))%R with (128 * (n * u * A0) + 256 * (u * A0) + 128 * (n * u * Rabs k) + 256 * (u * Rabs k))%R by ring. lra.
Qed.
Print Assumptions C91_portfolio.

(** The order of the positions matters at most twice that much, *)
Theorem C91_order : forall total l l' cash dc x x', either_sum total -> pf_ok l cash dc -> Permutation l l' ->
  f_pf_present_value total l cash dc = Ok x -> f_pf_present_value total l' cash dc = Ok x' ->
  (Rabs (B2R x - B2R x') <= (INR (List.length l) + 2) / 2 ^ 45 * gross_value l cash dc)%R.
Proof.
  intros total l l' cash dc x x' ES OK P E E'. assert (Pl : List.length l' = List.length l) by (symmetry; apply Permutation_length; exact P).
  assert (OK' : pf_ok l' cash dc). { destruct OK as (L & Fc & Bc & H). split; [rewrite Pl; exact L|]. split; [exact Fc|]. split; [exact Bc|]. intros e He. apply H. apply (Permutation_in _ (Permutation_sym P)). exact He. }
  destruct (C91_portfolio total l cash dc ES OK) as (y & Y & _ & B). destruct (C91_portfolio total l' cash dc ES OK') as (y' & Y' & _ & B'). assert (y = x) by congruence. assert (y' = x') by congruence. subst y y'.
  assert (G : gross_value l' cash dc = gross_value l cash dc) by (unfold gross_value, sum_abs; f_equal; apply sumR_perm, Permutation_map, Permutation_map, Permutation_sym, P).
  assert (V : exact_value l' cash dc = exact_value l cash dc) by (unfold exact_value; f_equal; apply sumR_perm, Permutation_map, Permutation_sym, P).
  rewrite Pl, G, V in B'. set (z := exact_value l cash dc) in *. set (g := gross_value l cash dc) in *. set (n := INR (List.length l)) in *.
  replace (B2R x - B2R x')%R with ((B2R x - z) - (B2R x' - z))%R by ring. unfold Rminus at 1. apply Rle_trans with (1 := Rabs_triang _ _). rewrite Rabs_Ropp.
  replace ((n + 2) / 2 ^ 45 * g)%R with (2 * ((n + 2) / 2 ^ 46 * g))%R by field. lra.
Qed.
Print Assumptions C91_order.

(** but it does matter: the same five positions in two orders. *)
Definition unit_position (m e : Z) : f_entry := FEntry (of_int 1) (fun _ => Ok (flit m e)).
Definition five : list f_entry := [unit_position 1 0; unit_position 1 100; unit_position 1 (-60); unit_position (-1) 100; unit_position (-1) 0].
Definition five' : list f_entry := [unit_position 1 0; unit_position 1 100; unit_position (-1) 0; unit_position 1 (-60); unit_position (-1) 100].
Definition any_curve : f_discount := FDiscount 0 (fun _ => Ok (of_int 1)).
Lemma five_ok : pf_ok five (of_int 0) any_curve.
Proof.
  destruct (of_int_val 1 ltac:(lia)) as [F1 E1]. destruct zero_val as [F0 E0]. split; [cbn; lia|]. split; [exact F0|]. split; [rewrite E0, Rabs_R0; apply bpow_ge_0|].
  assert (G : forall m k, (Z.abs m = 1)%Z -> (-100 <= k <= 100)%Z -> product_ok (of_int 1) (flit m k)).
  { intros m k Hm Hk. destruct (flit_val m k ltac:(lia) ltac:(lia)) as [F E]. split; [exact F1|]. split; [exact F|]. right. rewrite E1, E, Rmult_1_l, Rabs_mult, <- abs_IZR, Hm, Rmult_1_l. rewrite (Rabs_pos_eq (bpow _ _)) by apply bpow_ge_0. split; apply bpow_le; lia. }
  intros e He. cbn in He. repeat destruct He as [<- | He]; try contradiction; cbn [fe_pv fe_quantity unit_position]; eexists; (split; [reflexivity|apply G; lia]).
Qed.
Theorem C91_order_refuted : forall total, either_sum total -> pf_ok five (of_int 0) any_curve /\ Permutation five five' /\
  exists x x', f_pf_present_value total five (of_int 0) any_curve = Ok x /\ f_pf_present_value total five' (of_int 0) any_curve = Ok x' /\ feq x x' = false.
Proof.
  intros total T. split; [apply five_ok|]. split.
  - unfold five, five'. do 2 apply perm_skip. apply Permutation_trans with [unit_position 1 (-60); unit_position (-1) 0; unit_position (-1) 100]; [apply perm_skip, perm_swap|apply perm_swap].
  - exists (ok_or (f_pf_present_value total five (of_int 0) any_curve)), (ok_or (f_pf_present_value total five' (of_int 0) any_curve)).
    destruct T as [-> | ->]; (split; [apply ok_eq; vm_compute; reflexivity|split; [apply ok_eq; vm_compute; reflexivity|vm_compute; reflexivity]]).
Qed.
Print Assumptions C91_order_refuted.


(** Positions of non-negative worth and non-negative cash: the error is relative to the value itself, so it is never negative, and positive when the exact value is. *)
Theorem C91_nonneg : forall total l cash dc x, either_sum total -> pf_ok l cash dc -> (Z.of_nat (List.length l) < 2 ^ 30)%Z ->
  (forall e, In e l -> 0 <= position dc e)%R -> (0 <= B2R cash)%R -> f_pf_present_value total l cash dc = Ok x ->
  (Rabs (B2R x - exact_value l cash dc) <= (INR (List.length l) + 2) / 2 ^ 46 * exact_value l cash dc)%R /\ (0 <= exact_value l cash dc)%R /\ (0 <= B2R x)%R /\ (0 < exact_value l cash dc -> 0 < B2R x)%R.
Proof.
  intros total l cash dc x ES OK L P C E. destruct (C91_portfolio total l cash dc ES OK) as (y & Y & _ & B). assert (y = x) by congruence. subst y.
  assert (G : sum_abs (List.map (position dc) l) = sumR (List.map (position dc) l) /\ (0 <= sumR (List.map (position dc) l))%R).
  { clear -P. unfold sum_abs. induction l as [|e l IH]; [split; [reflexivity|cbn; lra]|]. destruct IH as [I1 I2]; [intros z Hz; apply P; right; exact Hz|]. pose proof (P e (or_introl eq_refl)) as Pe. cbn [List.map sumR fold_right]. unfold sumR in *. rewrite I1, Rabs_pos_eq by exact Pe. split; [reflexivity|lra]. }
  destruct G as [G1 G2]. assert (GV : gross_value l cash dc = exact_value l cash dc) by (unfold gross_value, exact_value; rewrite G1, Rabs_pos_eq by exact C; reflexivity). rewrite GV in B.
  assert (V0 : (0 <= exact_value l cash dc)%R) by (unfold exact_value; lra). split; [exact B|]. split; [exact V0|]. set (v := exact_value l cash dc) in *. set (n := INR (List.length l)) in *.
  assert (Nb : (n + 1 <= 1073741824)%R). { unfold n. rewrite INR_IZR_INZ, <- (plus_IZR _ 1). apply IZR_le. lia. }
  assert (Q : ((n + 2) / 2 ^ 46 <= 1 / 2)%R) by lra. assert (Qv : ((n + 2) / 2 ^ 46 * v <= 1 / 2 * v)%R) by (apply Rmult_le_compat_r; assumption).
  apply Rabs_le_inv in B. split; [|intros]; lra.
Qed.
Print Assumptions C91_nonneg.

Example C91_case : exists x, f_pf_present_value f_sum [unit_position 3 4; unit_position 1 (-60)] (of_int 7) any_curve = Ok x /\ pf_ok [unit_position 1 0] (of_int 7) any_curve /\
  product_ok (of_int 1) (flit 3 4) /\ exact_value [unit_position 3 4] (of_int 7) any_curve = 55%R.
Proof.
  destruct (of_int_val 1 ltac:(lia)) as [F1 E1]. destruct (of_int_val 7 ltac:(lia)) as [F7 E7]. eexists. split; [reflexivity|]. 
  assert (G : forall m k, (1 <= Z.abs m <= 100)%Z -> (-100 <= k <= 100)%Z -> product_ok (of_int 1) (flit m k)).
  { intros m k Hm Hk. destruct (flit_val m k ltac:(lia) ltac:(lia)) as [F E]. split; [exact F1|]. split; [exact F|]. right. rewrite E1, E, Rmult_1_l, Rabs_mult, <- abs_IZR. rewrite (Rabs_pos_eq (bpow _ _)) by apply bpow_ge_0.
    assert (1 <= IZR (Z.abs m) <= 100)%R by (split; apply IZR_le; lia). assert (bpow radix2 (-900) <= bpow radix2 k)%R by (apply bpow_le; lia). assert (bpow radix2 k <= bpow radix2 100)%R by (apply bpow_le; lia). assert (bpow radix2 100 * bpow radix2 7 <= bpow radix2 800)%R by (rewrite <- bpow_plus; apply bpow_le; lia). change (bpow radix2 7) with 128%R in *. pose proof (bpow_gt_0 radix2 k). split; nra. }
  split; [|split; [apply G; lia|]].
  - split; [cbn; lia|]. split; [exact F7|]. split; [rewrite E7, Rabs_pos_eq by lra; apply Rle_trans with (bpow radix2 3); [change (bpow radix2 3) with 8%R; lra|apply bpow_le; lia]|]. intros e [<- | []]. eexists. split; [reflexivity|]. apply G; lia.
  - unfold exact_value, position, unit_position. cbn [List.map fe_pv fe_quantity sumR fold_right]. rewrite E1, E7, (proj2 (flit_val 3 4 ltac:(lia) ltac:(lia))). change (bpow radix2 4) with 16%R. lra.
Qed.
(** a cashflow with a payment before the reference date, one on it and one without an amount *)
Example C91_case_cashflow : received 10 [FPayment 9 (Some (of_int 3)); FPayment 10 (Some (of_int 5)); FPayment 11 None; FPayment 12 (Some (of_int 2))] = [(10, of_int 5); (12, of_int 2)] /\
  fd_call any_curve 10 = Ok (of_int 1) /\ product_ok (of_int 1) (of_int 5).
Proof.
  destruct (of_int_val 1 ltac:(lia)) as [F1 E1]. destruct (of_int_val 5 ltac:(lia)) as [F5 E5]. split; [reflexivity|]. split; [reflexivity|]. split; [exact F1|]. split; [exact F5|]. right. rewrite E1, E5, Rmult_1_l, Rabs_pos_eq by lra.
  split; [apply Rle_trans with (bpow radix2 0); [apply bpow_le; lia|change (bpow radix2 0) with 1%R; lra]|apply Rle_trans with (bpow radix2 3); [change (bpow radix2 3) with 8%R; lra|apply bpow_le; lia]].
Qed.
