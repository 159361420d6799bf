(** C98, C99: constructing a Brownian motion, and the second moments of its paths. *)
From Verif Require Import Base PyDate PyDateFacts PyList Loan DayCount DayCountFacts RVec Stochastic StochasticFacts P_DayCount Multi BrownianInit P_Stochastic.
From Coq Require Import Reals Qreals Lra.
Open Scope Z_scope.
Ltac lra := Lra.lra.
Ltac nra := Lra.nra.

(** ---- specification ---- *)
(** the symmetric matrix given by the entries on and below the diagonal *)
Definition symmetrised (M : mat) : mat := fun i j => if Nat.leb j i then M i j else M j i.
(** x^T A x > 0 for every x which is not zero *)
Definition positive_definite (n : nat) (A : mat) : Prop := forall x : vec, (exists i, (i < n)%nat /\ x i <> 0%R) -> (0 < sumn n (fun i => sumn n (fun j => x i * A i j * x j)))%R.
(** L is a lower triangular square root with a positive diagonal *)
Definition lower_root (n : nat) (L A : mat) : Prop :=
  (forall i j, (i < n)%nat -> (j < n)%nat -> sumn n (fun k => L i k * L j k)%R = A i j) /\ (forall i j, (i < j < n)%nat -> L i j = 0%R) /\ (forall i, (i < n)%nat -> (0 < L i i)%R).

(** ---- Cholesky ---- *)
Open Scope R_scope.
Lemma row_beyond M L i : forall j k, (j <= k)%nat -> cholesky_row M L i j k = 0.
Proof. induction j as [|j IH]; intros k K; [reflexivity|]. cbn [cholesky_row]. destruct (Nat.eqb_spec k j); [lia|]. apply IH. lia. Qed.
Lemma row_stable M L i j : forall j' k, (k < j)%nat -> (j <= j')%nat -> cholesky_row M L i j' k = cholesky_row M L i j k.
Proof. induction j' as [|j' IH]; intros k K J; [lia|]. destruct (Nat.eq_dec j (S j')) as [->|N]; [reflexivity|]. cbn [cholesky_row]. destruct (Nat.eqb_spec k j'); [lia|]. apply IH; lia. Qed.
Lemma row_value M L i n j : (j < n)%nat -> L j j <> 0 -> sumn j (fun k => cholesky_row M L i n k * L j k) + cholesky_row M L i n j * L j j = M i j.
Proof.
  intros J N. rewrite (sumn_ext j _ (fun k => cholesky_row M L i j k * L j k)) by (intros k K; rewrite (row_stable M L i j n k K ltac:(lia)); reflexivity).
  rewrite (row_stable M L i (S j) n j ltac:(lia) ltac:(lia)). cbn [cholesky_row]. rewrite Nat.eqb_refl. field. exact N.
Qed.
Lemma sumn_cut n m f : (m <= n)%nat -> (forall k, (m <= k < n)%nat -> f k = 0) -> sumn n f = sumn m f.
Proof. induction n as [|n IH]; intros L H; [replace m with O by lia; reflexivity|]. destruct (Nat.eq_dec m (S n)) as [->|N]; [reflexivity|]. cbn [sumn]. rewrite (H n ltac:(lia)), IH by (lia || (intros; apply H; lia)). ring. Qed.
Lemma cholesky_beyond M : forall m L, cholesky M m = Some L -> forall a b, (m <= b)%nat -> L a b = 0.
Proof.
  induction m as [|m IH]; intros L E a b Hb; cbn [cholesky] in E; [injection E as <-; reflexivity|]. destruct (cholesky M m) as [L0|]; [|discriminate]. destruct (Rlt_dec 0 _); [|discriminate]. injection E as <-.
  destruct (Nat.eqb_spec a m); [destruct (Nat.eqb_spec b m); [lia|apply row_beyond; lia]|apply (IH L0 eq_refl); lia].
Qed.
Lemma cholesky_root M : forall n L, cholesky M n = Some L -> lower_root n L (symmetrised M).
Proof.
  induction n as [|n IH]; intros L E; [split; [|split]; intros; lia|]. cbn [cholesky] in E. destruct (cholesky M n) as [L0|] eqn:E0; [|discriminate]. specialize (IH L0 eq_refl). destruct IH as (A & B & C).
  set (r := cholesky_row M L0 n n) in *. destruct (Rlt_dec 0 _) as [P|]; [|discriminate]. injection E as <-. set (p := M n n - sumn n (fun k => r k * r k)) in *.
  assert (Sq : sqrt p * sqrt p = p) by (apply sqrt_sqrt; lra). assert (Rb : forall k, (n <= k)%nat -> r k = 0) by (intros; apply row_beyond; assumption).
  assert (Rv : forall j, (j < n)%nat -> sumn n (fun k => r k * L0 j k) = M n j).
  { intros j J. rewrite <- (row_value M L0 n n j J ltac:(specialize (C j J); lra)). fold r. rewrite (sumn_cut n (S j)) by (lia || (intros k K; rewrite (B j k ltac:(lia)); ring)). reflexivity. }
  split; [|split].
  - assert (Lo : forall i j, (j <= i)%nat -> (i < S n)%nat -> sumn (S n) (fun k => (if Nat.eqb i n then if Nat.eqb k n then sqrt p else r k else L0 i k) * (if Nat.eqb j n then if Nat.eqb k n then sqrt p else r k else L0 j k)) = M i j).
    { intros i j Ji I. cbn [sumn]. rewrite Nat.eqb_refl. destruct (Nat.eqb_spec i n) as [->|Ni].
      - destruct (Nat.eqb_spec j n) as [->|Nj].
        + rewrite (sumn_ext n _ (fun k => r k * r k)) by (intros k K; destruct (Nat.eqb_spec k n); [lia|reflexivity]). rewrite Sq. unfold p. ring.
        + rewrite (sumn_ext n _ (fun k => r k * L0 j k)) by (intros k K; destruct (Nat.eqb_spec k n); [lia|reflexivity]). rewrite (Rv j ltac:(lia)).
          assert (Z : L0 j n = 0) by (apply (cholesky_beyond M n L0 E0); lia).
          rewrite Z. ring.
      - destruct (Nat.eqb_spec j n) as [->|Nj]; [lia|].
        assert (Z : L0 i n = 0) by (apply (cholesky_beyond M n L0 E0); lia).
        rewrite Z, (A i j ltac:(lia) ltac:(lia)). unfold symmetrised. destruct (Nat.leb_spec j i); [ring|lia]. }
    intros i j I J. unfold symmetrised. destruct (Nat.leb_spec j i) as [Le|Gt]; [apply Lo; assumption|].
    rewrite <- (Lo j i ltac:(lia) J). apply sumn_ext. intros. ring.
  - intros i j Ij. destruct (Nat.eqb_spec i n) as [->|Ni]; [lia|]. destruct (Nat.eq_dec j n) as [->|Nj]; [|apply B; lia].
    apply (cholesky_beyond M n L0 E0). lia.
  - intros i I. destruct (Nat.eqb_spec i n) as [->|Ni]; [apply sqrt_lt_R0, P|apply C; lia].
Qed.

(** a quadratic form of L L^T is a sum of squares *)
Lemma quad_squares n L A x : (forall i j, (i < n)%nat -> (j < n)%nat -> sumn n (fun k => L i k * L j k) = A i j) ->
  sumn n (fun i => sumn n (fun j => x i * A i j * x j)) = sumn n (fun k => sumn n (fun i => x i * L i k) * sumn n (fun i => x i * L i k)).
Proof.
  intros H. transitivity (sumn n (fun i => sumn n (fun k => x i * L i k * sumn n (fun j => x j * L j k)))).
  - apply sumn_ext. intros i I. rewrite (sumn_ext n (fun k => _ * sumn n _) (fun k => sumn n (fun j => x i * L i k * (x j * L j k)))) by (intros; symmetry; apply sumn_scal). rewrite sumn_swap. apply sumn_ext. intros j J.
    rewrite <- (H i j I J), <- sumn_scal, <- sumn_scal_r. apply sumn_ext. intros. ring.
  - rewrite sumn_swap. apply sumn_ext. intros k K. apply sumn_scal_r.
Qed.
Lemma sumn_pos n f i : (forall j, (j < n)%nat -> 0 <= f j) -> (i < n)%nat -> 0 < f i -> 0 < sumn n f.
Proof.
  induction n as [|n IH]; intros H I P; [lia|]. cbn [sumn]. pose proof (H n ltac:(lia)). destruct (Nat.eq_dec i n) as [->|N].
  - pose proof (sumn_nonneg n f (fun j J => H j ltac:(lia))). lra.
  - specialize (IH (fun j J => H j ltac:(lia)) ltac:(lia) P). lra.
Qed.
Lemma last_nonzero n (x : vec) : (exists i, (i < n)%nat /\ x i <> 0) -> exists i, (i < n)%nat /\ x i <> 0 /\ forall j, (i < j < n)%nat -> x j = 0.
Proof.
  induction n as [|n IH]; intros (i & I & N); [lia|]. destruct (Req_EM_T (x n) 0) as [Z|Z].
  - destruct IH as (k & K & Nk & H); [exists i; split; [|exact N]; destruct (Nat.eq_dec i n) as [->|]; [contradiction|lia]|]. exists k. split; [lia|]. split; [exact Nk|]. intros j J. destruct (Nat.eq_dec j n) as [->|]; [exact Z|apply H; lia].
  - exists n. split; [lia|]. split; [exact Z|]. intros; lia.
Qed.
Lemma root_definite n L A : lower_root n L A -> positive_definite n A.
Proof.
  intros (H & Z & P) x Nz. rewrite (quad_squares n L A x H). destruct (last_nonzero n x Nz) as (i & I & Ni & After).
  apply (sumn_pos n _ i); [intros; apply Rle_0_sqr|exact I|]. assert (E : sumn n (fun m => x m * L m i) = x i * L i i).
  { rewrite (sumn_ext n _ (fun m => delta i m * (x m * L m i))); [apply (sumn_delta n i (fun m => x m * L m i) I)|]. intros m M. unfold delta. destruct (Nat.eqb_spec i m) as [->|N]; [ring|].
    destruct (Nat.lt_ge_cases m i); [rewrite (Z m i ltac:(lia)); ring|rewrite (After m ltac:(lia)); ring]. }
  rewrite E. specialize (P i I). assert (x i * L i i <> 0) by (apply Rmult_integral_contrapositive_currified; [exact Ni|lra]). apply Rsqr_pos_lt in H0. exact H0.
Qed.
(** back substitution *)
Lemma back_substitution n L : (forall i j, (i < j < n)%nat -> L i j = 0) -> (forall i, (i < n)%nat -> L i i <> 0) -> forall r : vec, exists y : vec, forall k, (k < n)%nat -> sumn n (fun i => y i * L i k) = r k.
Proof.
  induction n as [|n IH]; intros Z N r; [exists (fun _ => 0); intros; lia|].
  destruct (IH (fun i j H => Z i j ltac:(lia)) (fun i H => N i ltac:(lia)) (fun k => r k - r n / L n n * L n k)) as [y Hy].
  exists (fun i => if Nat.eqb i n then r n / L n n else y i). intros k K. cbn [sumn]. rewrite Nat.eqb_refl.
  rewrite (sumn_ext n _ (fun i => y i * L i k)) by (intros i I; destruct (Nat.eqb_spec i n); [lia|reflexivity]).
  destruct (Nat.eq_dec k n) as [->|Nk]; [|rewrite (Hy k ltac:(lia)); ring].
  rewrite sumn_zero by (intros i I; rewrite (Z i n ltac:(lia)); ring). field. apply N. lia.
Qed.
Lemma definite_below n A : positive_definite (S n) A -> positive_definite n A.
Proof.
  intros H x (i & I & N). specialize (H (fun j => if Nat.eqb j n then 0 else x j)). cbn [sumn] in H. rewrite Nat.eqb_refl in H.
  assert (E : exists j, (j < S n)%nat /\ (if Nat.eqb j n then 0 else x j) <> 0) by (exists i; split; [lia|]; destruct (Nat.eqb_spec i n); [lia|exact N]). specialize (H E).
  rewrite (sumn_ext n _ (fun i => sumn n (fun j => x i * A i j * x j))) in H.
  - rewrite (sumn_zero n (fun j => 0 * _ * _)) in H by (intros; ring). lra.
  - intros a Ha. destruct (Nat.eqb_spec a n); [lia|]. rewrite Rmult_0_r, Rplus_0_r. apply sumn_ext. intros b Hb. destruct (Nat.eqb_spec b n); [lia|reflexivity].
Qed.
Lemma definite_cholesky M : forall n, positive_definite n (symmetrised M) -> exists L, cholesky M n = Some L.
Proof.
  induction n as [|n IH]; intros Pd; [eexists; reflexivity|]. destruct (IH (definite_below _ _ Pd)) as [L E]. cbn [cholesky]. rewrite E. pose proof (cholesky_root _ _ _ E) as (A & B & C).
  set (r := cholesky_row M L n n). destruct (Rlt_dec 0 _) as [P|NP]; [eauto|]. exfalso. apply NP. clear NP.
  assert (Rv : forall j, (j < n)%nat -> sumn n (fun k => r k * L j k) = M n j).
  { intros j J. rewrite <- (row_value M L n n j J ltac:(specialize (C j J); lra)). fold r. rewrite (sumn_cut n (S j)) by (lia || (intros k K; rewrite (B j k ltac:(lia)); ring)). reflexivity. }
  destruct (back_substitution n L B (fun i I => Rgt_not_eq _ _ (C i I)) r) as [y Hy].
  specialize (Pd (fun i => if Nat.eqb i n then 1 else - y i)). assert (Ex : exists i, (i < S n)%nat /\ (if Nat.eqb i n then 1 else - y i) <> 0) by (exists n; rewrite Nat.eqb_refl; split; [lia|lra]). specialize (Pd Ex).
  cbn [sumn] in Pd. rewrite Nat.eqb_refl in Pd. unfold symmetrised in Pd at 4. rewrite Nat.leb_refl in Pd.
  assert (Q1 : sumn n (fun i => sumn n (fun j => (if Nat.eqb i n then 1 else - y i) * symmetrised M i j * (if Nat.eqb j n then 1 else - y j)) + (if Nat.eqb i n then 1 else - y i) * symmetrised M i n * 1) = sumn n (fun k => r k * r k) - sumn n (fun i => y i * M n i)).
  { rewrite sumn_plus. rewrite (sumn_ext n (fun i => sumn n _) (fun i => sumn n (fun j => y i * symmetrised M i j * y j))) by (intros i I; apply sumn_ext; intros j J; destruct (Nat.eqb_spec i n), (Nat.eqb_spec j n); try lia; ring).
    rewrite (quad_squares n L (symmetrised M) y A). rewrite (sumn_ext n _ (fun k => r k * r k)) by (intros k K; rewrite (Hy k K); reflexivity).
    rewrite (sumn_ext n (fun i => _ * symmetrised M i n * 1) (fun i => - (y i * M n i))) by (intros i I; unfold symmetrised; destruct (Nat.eqb_spec i n), (Nat.leb_spec n i); try lia; ring). rewrite sumn_opp. ring. }
  assert (Q2 : sumn n (fun j => 1 * symmetrised M n j * (if Nat.eqb j n then 1 else - y j)) = - sumn n (fun i => y i * M n i)).
  { rewrite <- sumn_opp. apply sumn_ext. intros j J. unfold symmetrised. destruct (Nat.eqb_spec j n), (Nat.leb_spec j n); try lia; ring. }
  assert (Q3 : sumn n (fun i => y i * M n i) = sumn n (fun k => r k * r k)).
  { rewrite (sumn_ext n _ (fun i => sumn n (fun k => r k * (y i * L i k)))) by (intros i I; rewrite <- (Rv i I), <- sumn_scal; apply sumn_ext; intros; ring). rewrite sumn_swap. apply sumn_ext. intros k K. rewrite sumn_scal, (Hy k K). reflexivity. }
  rewrite Q1, Q2, Q3 in Pd. lra.
Qed.
Lemma cholesky_iff M n : (exists L, cholesky M n = Some L) <-> positive_definite n (symmetrised M).
Proof. split; [intros [L E]; exact (root_definite _ _ _ (cholesky_root _ _ _ E))|apply definite_cholesky]. Qed.
Lemma delta_symmetrised i j : symmetrised delta i j = delta i j.
Proof. unfold symmetrised. destruct (Nat.leb j i); [reflexivity|apply delta_sym]. Qed.
Lemma identity_definite n : positive_definite n (symmetrised delta).
Proof.
  intros x (i & I & N). rewrite (sumn_ext n _ (fun i => x i * x i)).
  - apply (sumn_pos n _ i); [intros; apply Rle_0_sqr|exact I|]. apply Rsqr_pos_lt, N.
  - intros a A. rewrite (sumn_ext n _ (fun b => delta a b * (x a * x b))) by (intros; rewrite delta_symmetrised; ring). apply (sumn_delta n a (fun b => x a * x b) A).
Qed.
Lemma cholesky_dec M n : {L | cholesky M n = Some L} + {cholesky M n = None}.
Proof. destruct (cholesky M n) as [L|]; [left; eauto|right; reflexivity]. Qed.
Close Scope R_scope.

(** ---- C98: the constructor ---- *)
(** It succeeds exactly when the dimension is not 0 and the matrix given is square with a positive definite lower half (in
    place of a matrix: a positive dimension).  The dimension is not compared with the shape. *)
Theorem C98_accepted : forall s e dim corr c, (exists m, new_motion s e dim corr c = Ok m) <->
  dim <> 0 /\ match corr with None => 0 < dim | Some a => nd_rows a = nd_cols a /\ positive_definite (nd_rows a) (symmetrised (nd_at a)) end.
Proof.
  intros s e dim corr c. unfold new_motion. destruct corr as [a|].
  - cbn [bind]. destruct (Z.eqb_spec dim 0) as [->|N]; [split; [intros [m H]; discriminate|tauto]|]. unfold np_cholesky. destruct (Nat.eqb_spec (nd_rows a) (nd_cols a)) as [Sq|Sq].
    + rewrite <- cholesky_iff. destruct (cholesky (nd_at a) (nd_rows a)) as [L|]; cbn [or_lin bind]; split; [intros _; eauto|intros _; eauto|intros [m H]; discriminate|intros (_ & _ & [L H]); discriminate].
    + cbn [bind]. split; [intros [m H]; discriminate|tauto].
  - unfold np_eye. destruct (Z.ltb_spec dim 0) as [Ng|Ng]; cbn [bind]; [split; [intros [m H]; discriminate|lia]|]. destruct (Z.eqb_spec dim 0) as [->|N]; [split; [intros [m H]; discriminate|tauto]|].
    unfold np_cholesky. cbn [nd_rows nd_cols nd_at]. rewrite Nat.eqb_refl. destruct (definite_cholesky delta (Z.to_nat dim) (identity_definite _)) as [L ->]. cbn [or_lin bind]. split; [intros _; lia|eauto].
Qed.
Print Assumptions C98_accepted.
(** what is raised otherwise *)
Theorem C98_rejected : forall s e dim corr c x, new_motion s e dim corr c = Err x <->
  match corr with
  | None => (dim < 0 /\ x = ValueError) \/ (dim = 0 /\ x = AssertionError)
  | Some a => (dim = 0 /\ x = AssertionError) \/ (dim <> 0 /\ x = LinAlgError /\ (nd_rows a <> nd_cols a \/ ~ positive_definite (nd_rows a) (symmetrised (nd_at a))))
  end.
Proof.
  intros s e dim corr c x. unfold new_motion. destruct corr as [a|].
  - cbn [bind]. destruct (Z.eqb_spec dim 0) as [->|N]; [split; [intros [= <-]; auto|intros [[_ ->]|[N _]]; [reflexivity|contradiction]]|]. unfold np_cholesky. destruct (Nat.eqb_spec (nd_rows a) (nd_cols a)) as [Sq|Sq].
    + rewrite <- cholesky_iff. destruct (cholesky (nd_at a) (nd_rows a)) as [L|]; cbn [or_lin bind]; split.
      * discriminate.
      * intros [[H _]|(_ & _ & [H|H])]; [contradiction|contradiction|destruct H; eauto].
      * intros [= <-]. right. split; [exact N|]. split; [reflexivity|]. right. intros [L H]. discriminate.
      * intros [[H _]|(_ & -> & _)]; [contradiction|reflexivity].
    + cbn [bind]. split; [intros [= <-]; auto|intros [[H _]|(_ & -> & _)]; [contradiction|reflexivity]].
  - unfold np_eye. destruct (Z.ltb_spec dim 0) as [Ng|Ng]; cbn [bind]; [split; [intros [= <-]; auto|intros [[_ ->]|[H _]]; [reflexivity|lia]]|]. destruct (Z.eqb_spec dim 0) as [->|N]; [split; [intros [= <-]; auto|intros [[H _]|[_ ->]]; [lia|reflexivity]]|].
    unfold np_cholesky. cbn [nd_rows nd_cols nd_at]. rewrite Nat.eqb_refl. destruct (definite_cholesky delta (Z.to_nat dim) (identity_definite _)) as [L ->]. cbn [or_lin bind]. split; [discriminate|intros [[H _]|[H _]]; lia].
Qed.
Print Assumptions C98_rejected.
(** the object made *)
Theorem C98_made : forall s e dim corr c m, new_motion s e dim corr c = Ok m ->
  bm_start (mo_bm m) = s /\ bm_end (mo_bm m) = e /\ bm_dcc (mo_bm m) = c /\ mo_dim m = dim /\ (forall x, motion_call m x = Err ValueError) /\
  (match corr with Some a => mo_corr m = a | None => nd_rows (mo_corr m) = Z.to_nat dim /\ nd_cols (mo_corr m) = Z.to_nat dim /\ forall i j, nd_at (mo_corr m) i j = delta i j end) /\
  mo_size m = nd_rows (mo_corr m) /\ lower_root (mo_size m) (bm_chol (mo_bm m)) (symmetrised (nd_at (mo_corr m))).
Proof.
  intros s e dim corr c m N. unfold new_motion in N. destruct (match corr with Some a => Ok a | None => np_eye dim end) as [a|] eqn:A; [|discriminate]. cbn [bind] in N. destruct (dim =? 0); [discriminate|].
  unfold np_cholesky in N. destruct (Nat.eqb (nd_rows a) (nd_cols a)); [|discriminate]. destruct (cholesky (nd_at a) (nd_rows a)) as [L|] eqn:C; [|discriminate]. cbn [or_lin bind] in N. injection N as <-. cbn.
  split; [reflexivity|]. split; [reflexivity|]. split; [reflexivity|]. split; [reflexivity|]. split; [reflexivity|]. split; [|split; [reflexivity|exact (cholesky_root _ _ _ C)]].
  destruct corr as [a'|]; [congruence|]. unfold np_eye in A. destruct (dim <? 0); [discriminate|]. injection A as <-. auto.
Qed.
Print Assumptions C98_made.
(** A matrix of another size: every generation raises (having replaced the datetimes), whatever the history, and so does every
    call.  With the right size generation is that of C48. *)
Fixpoint motion_history (m : motion) (ops : list (dt_step * bool * (nat -> vec))) : motion :=
  match ops with [] => m | (dt, set, draw) :: ops => motion_history (fst (motion_path m dt set draw)) ops end.
Theorem C98_mismatch : forall s e dim corr c m ops dt set draw x, new_motion s e dim corr c = Ok m -> dim <> Z.of_nat (nd_rows (mo_corr m)) ->
  (exists err, snd (motion_path (motion_history m ops) dt set draw) = Err err) /\ motion_call (motion_history m ops) x = Err ValueError.
Proof.
  intros s e dim corr c m ops dt set draw x N D. destruct (C98_made _ _ _ _ _ _ N) as (_ & _ & _ & Ed & _ & _ & Es & _).
  assert (B : forall m, mo_dim m = dim -> (mo_dim m <? 0) || negb (Nat.eqb (mo_size m) (Z.to_nat (mo_dim m))) = true \/ Z.of_nat (mo_size m) = dim).
  { intros m' ->. destruct (Z.ltb_spec dim 0); [left; reflexivity|]. destruct (Nat.eqb_spec (mo_size m') (Z.to_nat dim)); [right; lia|left; reflexivity]. }
  assert (P0 : bm_path (mo_bm m) = None) by (unfold new_motion in N; destruct (match corr with Some a => Ok a | None => np_eye dim end); [|discriminate]; cbn [bind] in N; destruct (dim =? 0); [discriminate|]; destruct (np_cholesky _); [|discriminate]; cbn [bind] in N; injection N as <-; reflexivity).
  assert (Inc : forall b dt draw, bm_path (fst (generate_increments b dt draw)) = bm_path b).
  { intros b dt' draw'. unfold generate_increments. destruct (generate_datetimes _ _ _ _); [|reflexivity]. destruct (nth_error _ _); [|reflexivity]. destruct (mapM _ _); reflexivity. }
  assert (St : forall m' dt set draw, mo_dim m' = dim -> mo_size m' = mo_size m -> bm_path (mo_bm m') = None -> let r := motion_path m' dt set draw in (exists err, snd r = Err err) /\ mo_dim (fst r) = dim /\ mo_size (fst r) = mo_size m /\ bm_path (mo_bm (fst r)) = None).
  { intros m' dt' set' draw' H1 H2 H3. unfold motion_path, motion_increments. specialize (Inc (mo_bm m') dt' draw'). destruct (generate_increments (mo_bm m') dt' draw') as [b [r|err]]; cbn [fst] in Inc.
    - destruct (B m' H1) as [Hb|Hb]; [|exfalso; apply D; rewrite <- Hb, H2, Es; reflexivity]. rewrite Hb. cbn. repeat split; eauto. congruence.
    - cbn. repeat split; eauto. congruence. }
  assert (Hi : forall ops m', mo_dim m' = dim -> mo_size m' = mo_size m -> bm_path (mo_bm m') = None -> mo_dim (motion_history m' ops) = dim /\ mo_size (motion_history m' ops) = mo_size m /\ bm_path (mo_bm (motion_history m' ops)) = None).
  { induction ops0 as [|[[dt' set'] draw'] ops' IH]; intros m' H1 H2 H3; cbn [motion_history]; [auto|]. destruct (St m' dt' set' draw' H1 H2 H3) as (_ & S1 & S2 & S3). apply IH; assumption. }
  destruct (Hi ops m Ed eq_refl P0) as (H1 & H2 & H3). split; [apply (St _ dt set draw H1 H2 H3)|]. unfold motion_call, bm_call, datetime_to_path_call. rewrite H3. reflexivity.
Qed.
Print Assumptions C98_mismatch.
Theorem C98_match : forall s e dim corr c m dt set draw, new_motion s e dim corr c = Ok m -> dim = Z.of_nat (nd_rows (mo_corr m)) ->
  motion_path m dt set draw = (with_bm m (fst (bm_generate_path (mo_bm m) dt set draw)), snd (bm_generate_path (mo_bm m) dt set draw)) /\ Z.of_nat (bm_dim (mo_bm m)) = dim.
Proof.
  intros s e dim corr c m dt set draw N D. destruct (C98_made _ _ _ _ _ _ N) as (_ & _ & _ & Ed & _ & _ & Es & _). split.
  - unfold motion_path, motion_increments, bm_generate_path. destruct (generate_increments _ _ _) as [b [[incs dts]|]]; [|reflexivity].
    rewrite Ed, Es. destruct (Z.ltb_spec dim 0); [lia|]. replace (Z.to_nat dim) with (nd_rows (mo_corr m)) by lia. rewrite Nat.eqb_refl. cbn [negb orb]. destruct set; reflexivity.
  - unfold new_motion in N. destruct (match corr with Some a => Ok a | None => np_eye dim end); [|discriminate]. cbn [bind] in N. destruct (dim =? 0); [discriminate|]. destruct (np_cholesky _); [|discriminate]. cbn [bind] in N. injection N as <-. cbn in *. lia.
Qed.
Print Assumptions C98_match.
(** computing the factor meets what the other theorems assume of numpy's cholesky *)
Theorem C98_contract : forall la, linalg_ok la -> linalg_ok (Linalg (la_eig la) (la_inv la) (la_solve la) (fun n M => cholesky M n)).
Proof.
  intros la [A B C _ _]. constructor; cbn; [exact A|exact B|exact C| |].
  - intros n M L E i j I J. destruct (cholesky_root _ _ _ E) as (H & _ & _). unfold mmul, tr. rewrite (H i j I ltac:(lia)). unfold symmetrised. destruct (Nat.leb_spec j i); [reflexivity|lia].
  - intros n M L E i j I. destruct (cholesky_root _ _ _ E) as (_ & H & _). apply H, I.
Qed.
Print Assumptions C98_contract.

(** ---- C99: second moments ---- *)
(** An expectation over the standard normal draws, as far as needed: linear, with uncorrelated centred draws of variance 1. *)
Record white_noise (E : ((nat -> vec) -> R) -> R) (steps n : nat) : Prop := {
  wn_ext : forall f g, (forall z, f z = g z) -> E f = E g;
  wn_linear : forall a b f g, E (fun z => a * f z + b * g z)%R = (a * E f + b * E g)%R;
  wn_one : E (fun _ => 1%R) = 1%R;
  wn_centred : forall k i, (k < steps)%nat -> (i < n)%nat -> E (fun z => z k i) = 0%R;
  wn_uncorrelated : forall k l i j, (k < steps)%nat -> (l < steps)%nat -> (i < n)%nat -> (j < n)%nat -> E (fun z => z k i * z l j)%R = (if Nat.eqb k l then delta i j else 0)%R
}.
(** coordinate i of the motion at the time x, on the path generated (and stored) from the draws z *)
Definition value_at (m : motion) (dt : dt_step) (x : datetime) (i : nat) (z : nat -> vec) : R :=
  match motion_call (fst (motion_path m dt true z)) x with Ok v => v i | Err _ => 0%R end.

Section Expectation.
Context (E : ((nat -> vec) -> R) -> R) (steps n : nat) (W : white_noise E steps n).
Open Scope R_scope.
Lemma E_scal a f : E (fun z => a * f z) = a * E f.
Proof. rewrite (wn_ext _ _ _ W _ (fun z => a * f z + 0 * f z)) by (intros; ring). rewrite (wn_linear _ _ _ W). ring. Qed.
Lemma E_sumn m (f : nat -> (nat -> vec) -> R) : E (fun z => sumn m (fun i => f i z)) = sumn m (fun i => E (f i)).
Proof.
  induction m as [|m IH]; cbn [sumn].
  - rewrite (wn_ext _ _ _ W _ (fun z => 0 * 1)) by (intros; ring). rewrite (E_scal 0 (fun _ => 1)). ring.
  - rewrite (wn_ext _ _ _ W _ (fun z => 1 * sumn m (fun i => f i z) + 1 * f m z)) by (intros; ring). rewrite (wn_linear _ _ _ W), IH. ring.
Qed.
Lemma prod_sums k l F G : sumn k F * sumn l G = sumn k (fun a => sumn l (fun b => F a * G b)).
Proof. rewrite <- sumn_scal_r. apply sumn_ext. intros a _. rewrite sumn_scal. reflexivity. Qed.
Lemma combination_mean (a : vec) k : (k < steps)%nat -> E (fun z => sumn n (fun j => a j * z k j)) = 0.
Proof. intros K. rewrite (E_sumn n (fun j z => a j * z k j)). apply sumn_zero. intros j J. rewrite (E_scal (a j) (fun z => z k j)), (wn_centred _ _ _ W k j K J). ring. Qed.
Lemma combination_cov (a b : vec) k l : (k < steps)%nat -> (l < steps)%nat ->
  E (fun z => sumn n (fun j => a j * z k j) * sumn n (fun j => b j * z l j)) = if Nat.eqb k l then sumn n (fun j => a j * b j) else 0.
Proof.
  intros K L. rewrite (wn_ext _ _ _ W _ (fun z => sumn n (fun i => sumn n (fun j => a i * b j * (z k i * z l j))))).
  2:{ intros z. rewrite prod_sums. apply sumn_ext. intros i _. apply sumn_ext. intros j _. ring. }
  rewrite (E_sumn n (fun i z => sumn n (fun j => a i * b j * (z k i * z l j)))). rewrite (sumn_ext n _ (fun i => if Nat.eqb k l then a i * b i else 0)).
  - destruct (Nat.eqb k l); [reflexivity|apply sumn_0].
  - intros i I. rewrite (E_sumn n (fun j z => a i * b j * (z k i * z l j))). rewrite (sumn_ext n _ (fun j => delta i j * (if Nat.eqb k l then a i * b j else 0))).
    + apply (sumn_delta n i (fun j => if Nat.eqb k l then a i * b j else 0) I).
    + intros j J. rewrite (E_scal (a i * b j) (fun z => z k i * z l j)), (wn_uncorrelated _ _ _ W k l i j K L I J). destruct (Nat.eqb k l); ring.
Qed.
Lemma sumn_min k l c : sumn k (fun a => sumn l (fun b => if Nat.eqb a b then c a else 0)) = sumn (Nat.min k l) c.
Proof.
  assert (In_ : forall a, sumn l (fun b => if Nat.eqb a b then c a else 0) = if Nat.ltb a l then c a else 0).
  { intros a. destruct (Nat.ltb_spec a l) as [Lt|Ge].
    - rewrite (sumn_ext l _ (fun b => delta a b * c a)) by (intros b _; unfold delta; destruct (Nat.eqb a b); ring). apply (sumn_delta l a (fun _ => c a) Lt).
    - apply sumn_zero. intros b B. destruct (Nat.eqb_spec a b); [lia|reflexivity]. }
  rewrite (sumn_ext k _ _ (fun a _ => In_ a)). destruct (Nat.le_ge_cases k l) as [Le|Ge].
  - rewrite Nat.min_l by exact Le. apply sumn_ext. intros a A. destruct (Nat.ltb_spec a l); [reflexivity|lia].
  - rewrite Nat.min_r by exact Ge. rewrite (sumn_cut k l); [|exact Ge|intros a A; destruct (Nat.ltb_spec a l); [lia|reflexivity]]. apply sumn_ext. intros a A. destruct (Nat.ltb_spec a l); [reflexivity|lia].
Qed.
(** sums of independent scaled increments *)
Lemma walk_mean (r : nat -> R) (a : vec) k : (k <= steps)%nat -> E (fun z => sumn k (fun m => r m * sumn n (fun j => a j * z m j))) = 0.
Proof. intros K. rewrite (E_sumn k (fun m z => r m * sumn n (fun j => a j * z m j))). apply sumn_zero. intros m M. rewrite (E_scal (r m) (fun z => sumn n (fun j => a j * z m j))), (combination_mean a m ltac:(lia)). ring. Qed.
Lemma walk_cov (r : nat -> R) (a b : vec) k l : (k <= steps)%nat -> (l <= steps)%nat ->
  E (fun z => sumn k (fun m => r m * sumn n (fun j => a j * z m j)) * sumn l (fun m => r m * sumn n (fun j => b j * z m j))) = sumn n (fun j => a j * b j) * sumn (Nat.min k l) (fun m => r m * r m).
Proof.
  intros K L. rewrite <- sumn_scal. rewrite <- (sumn_min k l). rewrite (wn_ext _ _ _ W _ (fun z => sumn k (fun m => sumn l (fun p => r m * r p * (sumn n (fun j => a j * z m j) * sumn n (fun j => b j * z p j)))))).
  2:{ intros z. rewrite prod_sums. apply sumn_ext. intros m _. apply sumn_ext. intros p _. ring. }
  rewrite (E_sumn k (fun m z => sumn l (fun p => r m * r p * (sumn n (fun j => a j * z m j) * sumn n (fun j => b j * z p j))))). apply sumn_ext. intros m M.
  rewrite (E_sumn l (fun p z => r m * r p * (sumn n (fun j => a j * z m j) * sumn n (fun j => b j * z p j)))). apply sumn_ext. intros p P.
  rewrite (E_scal (r m * r p) (fun z => sumn n (fun j => a j * z m j) * sumn n (fun j => b j * z p j))), (combination_cov a b m p ltac:(lia) ltac:(lia)). destruct (Nat.eqb_spec m p) as [->|]; ring.
Qed.
End Expectation.

(** the datetimes and time increments do not depend on the draws *)
Lemma increments_draws b dt z0 b' incs dts : generate_increments b dt z0 = (b', Ok (incs, dts)) -> forall z, generate_increments b dt z = (b', Ok (columns_from b z 0 dts, dts)).
Proof.
  intros E z. unfold generate_increments in *. destruct (generate_datetimes _ _ _ _) as [g|]; [|discriminate]. destruct (nth_error _ _); [|discriminate]. destruct (mapM _ _) as [ds|]; [|discriminate].
  injection E as <- _ <-. reflexivity.
Qed.
Lemma walk_value (r : nat -> R) (p : list vec) (i : nat) : (forall v, nth_error p 0 = Some v -> v i = 0%R) ->
  (forall k v w, nth_error p k = Some v -> nth_error p (S k) = Some w -> w i = (v i + r k)%R) -> forall k v, nth_error p k = Some v -> v i = sumn k r.
Proof.
  intros H0 H. induction k as [|k IH]; intros v V; [exact (H0 v V)|]. assert (S k < List.length p)%nat by (apply nth_error_Some; congruence).
  destruct (nth_error p k) as [u|] eqn:U; [|apply nth_error_None in U; lia]. cbn [sumn]. rewrite <- (IH u eq_refl). exact (H k u v U V).
Qed.

(** The motion at two of its grid times: centred, and the covariance is the matrix given (its lower half) times the sum of the
    lengths of the grid intervals up to the earlier one. *)
Theorem C99_moments : forall s e dim corr c m dt z0 m0 p0 g dts E, new_motion s e dim corr c = Ok m -> forward dt -> c <> THIRTY360 -> stamp_ok c s -> stamp_ok c e -> dt_abs s <= dt_abs e ->
  motion_path m dt true z0 = (m0, Ok p0) -> bm_times (mo_bm m0) = Some g -> bm_dts (mo_bm m0) = Some dts -> white_noise E (List.length dts) (Z.to_nat dim) ->
  (forall k x y q, nth_error g k = Some x -> nth_error g (S k) = Some y -> nth_error dts k = Some q -> compute_accrual_length (Stamp x) (Stamp y) c = Ok q) /\
  forall k l x y i j, nth_error g k = Some x -> nth_error g l = Some y -> (i < Z.to_nat dim)%nat -> (j < Z.to_nat dim)%nat ->
    E (value_at m dt x i) = 0%R /\
    E (fun z => value_at m dt x i z * value_at m dt y j z)%R = (symmetrised (nd_at (mo_corr m)) i j * sumn (Nat.min k l) (fun t => Q2R (nth t dts 0%Q)))%R.
Proof.
  intros s e dim corr c m dt z0 m0 p0 g dts E N F NC Ss Se Lse P T D W.
  destruct (C98_made _ _ _ _ _ _ N) as (Es & Ee & Ec & Ed & _ & _ & Sz & Root).
  assert (Dm : dim = Z.of_nat (nd_rows (mo_corr m))).
  { destruct (Z.eq_dec dim (Z.of_nat (nd_rows (mo_corr m)))) as [|Nd]; [assumption|]. destruct (C98_mismatch s e dim corr c m [] dt true z0 s N Nd) as ([err Er] & _). cbn [motion_history] in Er. rewrite P in Er. discriminate. }
  assert (Pz : forall z, motion_path m dt true z = (with_bm m (fst (bm_generate_path (mo_bm m) dt true z)), snd (bm_generate_path (mo_bm m) dt true z)) /\ Z.of_nat (bm_dim (mo_bm m)) = dim) by (intros; apply (C98_match s e dim corr c m dt true z N Dm)).
  rewrite (proj1 (Pz z0)) in P. injection P as <- P. cbn [with_bm mo_bm] in T, D.
  assert (Bd : bm_dim (mo_bm m) = Z.to_nat dim) by (destruct (Pz z0) as [_ H]; lia).
  unfold bm_generate_path in T, D, P. destruct (generate_increments (mo_bm m) dt z0) as [b1 [[incs dts0]|]] eqn:G; [|discriminate]. cbn [fst snd] in T, D, P. change (bm_times b1 = Some g) in T. change (bm_dts b1 = Some dts) in D.
  destruct (proj1 Ss) as [? ?]. assert (Os : datetime_ok (bm_start (mo_bm m))) by (rewrite Es; apply Ss). assert (Oe : datetime_ok (bm_end (mo_bm m))) by (rewrite Ee; apply Se). assert (L : dt_abs (bm_start (mo_bm m)) <= dt_abs (bm_end (mo_bm m))) by (rewrite Es, Ee; exact Lse).
  destruct (C48_grid _ _ _ _ _ _ F Os Oe L G) as (g' & T' & D' & _ & TG & Lg & _ & Ac & _). rewrite T in T'. injection T' as <-. rewrite D in D'. injection D' as <-. rewrite Ec in Ac. split; [exact Ac|].
  destruct TG as [G1 G2 G3 G4 G5]. rewrite Es, Ee in *.
  assert (Stp : forall x, In x g -> stamp_ok c x).
  { intros x I. destruct (G4 x I) as [Ox Bx]. destruct Ss as (Os' & Ls & Ys), Se as (Oe' & Le & Ye). split; [exact Ox|]. split.
    - pose proof (dt_abs_date x e Ox Oe' ltac:(lia)). lia.
    - intros C. specialize (Ys C). pose proof (dt_abs_date s x Os' Ox ltac:(lia)). pose proof (year_mono (dt_date s) (dt_date x) ltac:(lia)). lia. }
  assert (Dp : forall t q, nth_error dts t = Some q -> (0 < Q2R q)%R).
  { intros t q Q. assert (t < List.length dts)%nat by (apply nth_error_Some; congruence). destruct (nth_error g t) as [x|] eqn:X; [|apply nth_error_None in X; lia]. destruct (nth_error g (S t)) as [y|] eqn:Y; [|apply nth_error_None in Y; lia].
    replace 0%R with (Q2R 0) by (unfold Q2R; cbn; lra). apply Qlt_Rlt. apply (accrual_positive c x y q NC (Stp x (nth_error_In _ _ X)) (Stp y (nth_error_In _ _ Y))); [apply (G3 t (S t) x y ltac:(lia) X Y)|apply (Ac t x y q X Y Q)]. }
  set (n := Z.to_nat dim) in *. set (r := fun t => sqrt (Q2R (nth t dts 0%Q))).
  assert (Val : forall k x i z, nth_error g k = Some x -> value_at m dt x i z = sumn k (fun t => r t * sumn n (fun j => bm_chol (mo_bm m) i j * z t j))%R).
  { intros k x i z X. unfold value_at. rewrite (proj1 (Pz z)). cbn [fst]. unfold motion_call. cbn [with_bm mo_bm].
    destruct (bm_generate_path (mo_bm m) dt true z) as [bz [pz|]] eqn:Bz; unfold bm_generate_path in Bz; rewrite (increments_draws _ _ _ _ _ _ G z) in Bz; [|discriminate]. fold (bm_generate_path (mo_bm m) dt true z) in Bz.
    assert (Bz' : bm_generate_path (mo_bm m) dt true z = (bz, Ok pz)) by (unfold bm_generate_path; rewrite (increments_draws _ _ _ _ _ _ G z); exact Bz). cbn [fst].
    assert (Os2 : datetime_ok (bm_start (mo_bm m))) by (rewrite Es; apply Ss). assert (Oe2 : datetime_ok (bm_end (mo_bm m))) by (rewrite Ee; apply Se). assert (L2 : dt_abs (bm_start (mo_bm m)) <= dt_abs (bm_end (mo_bm m))) by (rewrite Es, Ee; exact Lse).
    destruct (C48_evaluation _ _ _ _ _ F Os2 Oe2 L2 Bz') as (g2 & T2 & Lp & _ & _ & Ev & _). destruct (C48_grid _ _ z _ _ _ F Os2 Oe2 L2 (increments_draws _ _ _ _ _ _ G z)) as (g3 & T3 & D3 & _ & _ & _ & Lc & _ & Cl).
    injection Bz as <- <-. change (bm_times b1 = Some g2) in T2. rewrite T in T2. injection T2 as <-.
    destruct (cumsum_spec (columns_from (mo_bm m) z 0 dts) (fun _ => 0%R)) as (Ln & C0 & Cs).
    set (pz := cumsum (fun _ => 0%R) (columns_from (mo_bm m) z 0 dts)) in *.
    destruct (nth_error pz k) as [v|] eqn:V; [|apply nth_error_None in V; assert (k < List.length g)%nat by (apply nth_error_Some; congruence); lia]. rewrite (Ev k x v X V).
    apply (walk_value _ pz i); [intros u U; rewrite C0 in U; injection U as <-; reflexivity| |exact V].
    intros t u w U Wn. assert (S t < List.length pz)%nat by (apply nth_error_Some; congruence). destruct (nth_error (columns_from (mo_bm m) z 0 dts) t) as [d|] eqn:Dn; [|apply nth_error_None in Dn; lia].
    destruct (nth_error dts t) as [q|] eqn:Q; [|apply nth_error_None in Q; lia]. rewrite (Cs t u w d i U Wn Dn), (Cl t q d i Q Dn). unfold r. rewrite (nth_error_nth _ _ 0%Q Q), Bd. reflexivity. }
  intros k l x y i j X Y I J. assert (Kl : (k <= List.length dts)%nat) by (assert (k < List.length g)%nat by (apply nth_error_Some; congruence); lia). assert (Ll : (l <= List.length dts)%nat) by (assert (l < List.length g)%nat by (apply nth_error_Some; congruence); lia). split.
  - rewrite (wn_ext _ _ _ W _ _ (fun z => Val k x i z X)). apply (walk_mean E _ n W r (bm_chol (mo_bm m) i) k Kl).
  - rewrite (wn_ext _ _ _ W _ (fun z => sumn k (fun t => r t * sumn n (fun j => bm_chol (mo_bm m) i j * z t j)) * sumn l (fun t => r t * sumn n (fun a => bm_chol (mo_bm m) j a * z t a)))%R) by (intros z; rewrite (Val k x i z X), (Val l y j z Y); reflexivity).
    rewrite (walk_cov E _ n W r (bm_chol (mo_bm m) i) (bm_chol (mo_bm m) j) k l Kl Ll). destruct Root as (Rt & _ & _). assert (Sn : mo_size m = n) by (rewrite Sz; unfold n; lia). rewrite Sn in Rt. rewrite (Rt i j I J). f_equal.
    apply sumn_ext. intros t Ht. unfold r. apply sqrt_sqrt. destruct (nth_error dts t) as [q|] eqn:Q; [|apply nth_error_None in Q; lia]. rewrite (nth_error_nth _ _ 0%Q Q). specialize (Dp t q Q). lra.
Qed.
Print Assumptions C99_moments.

(** Counting actual days over a fixed basis, the covariance grows with the time elapsed until the earlier of the two times. *)
Theorem C99_elapsed : forall s e dim corr c N m dt z0 m0 p0 g dts E, In (c, N) actual_over -> new_motion s e dim corr c = Ok m -> forward dt -> stamp_ok c s -> stamp_ok c e -> dt_abs s <= dt_abs e ->
  motion_path m dt true z0 = (m0, Ok p0) -> bm_times (mo_bm m0) = Some g -> bm_dts (mo_bm m0) = Some dts -> white_noise E (List.length dts) (Z.to_nat dim) ->
  forall x y i j, In x g -> In y g -> (i < Z.to_nat dim)%nat -> (j < Z.to_nat dim)%nat ->
    E (fun z => value_at m dt x i z * value_at m dt y j z)%R =
      (symmetrised (nd_at (mo_corr m)) i j * (IZR (Z.min (dt_abs x) (dt_abs y) - dt_abs s) / 1000000 / (86400 * Q2R N)))%R.
Proof.
  intros s e dim corr c N m dt z0 m0 p0 g dts E A Nm F Ss Se Lse P T D W x y i j Ix Iy I J.
  assert (NC : c <> THIRTY360) by (intros ->; cbn in A; repeat destruct A as [A|A]; try discriminate; contradiction).
  destruct (C99_moments s e dim corr c m dt z0 m0 p0 g dts E Nm F NC Ss Se Lse P T D W) as (Ac & H).
  destruct (C98_made _ _ _ _ _ _ Nm) as (Es & Ee & Ec & Ed & _ & _ & Sz & _).
  assert (TG : time_grid s e dt g /\ List.length g = S (List.length dts)).
  { unfold motion_path, motion_increments in P. destruct (generate_increments (mo_bm m) dt z0) as [b1 [[incs dts0]|]] eqn:G; [|discriminate]. destruct ((mo_dim m <? 0) || _); [discriminate|]. injection P as <- _. change (bm_times b1 = Some g) in T. change (bm_dts b1 = Some dts) in D.
    destruct (C48_grid _ _ _ _ _ _ F ltac:(rewrite Es; apply Ss) ltac:(rewrite Ee; apply Se) ltac:(rewrite Es, Ee; exact Lse) G) as (g' & T' & D' & _ & TG & Lg & _). rewrite Es, Ee in TG. rewrite T in T'. injection T' as <-. rewrite D in D'. injection D' as <-. auto. }
  destruct TG as [[G1 G2 G3 G4 G5] Lg].
  assert (Sum : forall k u, nth_error g k = Some u -> sumn k (fun t => Q2R (nth t dts 0%Q)) = (IZR (dt_abs u - dt_abs s) / 1000000 / (86400 * Q2R N))%R).
  { induction k as [|k IH]; intros u U; [rewrite G1 in U; injection U as <-; rewrite Z.sub_diag; cbn [sumn]; unfold Rdiv; ring|].
    assert (S k < List.length g)%nat by (apply nth_error_Some; congruence). destruct (nth_error g k) as [v|] eqn:V; [|apply nth_error_None in V; lia]. destruct (nth_error dts k) as [q|] eqn:Q; [|apply nth_error_None in Q; lia].
    cbn [sumn]. rewrite (IH v eq_refl), (nth_error_nth _ _ 0%Q Q). pose proof (Ac k v u q V U Q) as Aq. pose proof (G3 k (S k) v u ltac:(lia) V U) as Lt.
    destruct (G4 v (nth_error_In _ _ V)) as [Ov Bv]. destruct (G4 u (nth_error_In _ _ U)) as [Ou Bu]. destruct Se as (Oe & Le & _).
    destruct (C05_timestamps_exact c N (Stamp v) (Stamp u) A Ov Ou) as (q' & E1 & E2).
    - cbn. pose proof (dt_abs_date v e Ov Oe ltac:(lia)). lia.
    - cbn. pose proof (dt_abs_date u e Ou Oe ltac:(lia)). lia.
    - unfold elapsed. cbn. lia.
    - rewrite Aq in E1. injection E1 as <-. rewrite (Qeq_eqR _ _ E2). assert (PN : (0 < N)%Q) by (unfold actual_over in A; cbn in A; repeat destruct A as [A|A]; try contradiction; injection A as _ <-; reflexivity).
      assert (NN : ~ (86400 * N == 0)%Q) by (intros Z; assert (X : (0 < 86400 * N)%Q) by (rewrite <- (Qmult_0_l N); apply Qmult_lt_compat_r; [exact PN|reflexivity]); rewrite Z in X; discriminate).
      unfold Qdiv. rewrite !Q2R_mult, !Q2R_inv, Q2R_mult by (exact NN || discriminate). replace (Q2R (inject_Z (elapsed (Stamp v) (Stamp u)))) with (IZR (dt_abs u - dt_abs v)) by (unfold Q2R, elapsed; cbn; rewrite Rinv_1; ring).
      replace (Q2R 1000000) with 1000000%R by (unfold Q2R; cbn; lra). replace (Q2R 86400) with 86400%R by (unfold Q2R; cbn; lra).
      assert (QN : Q2R N <> 0%R) by (apply Qlt_Rlt in PN; replace (Q2R 0) with 0%R in PN by (unfold Q2R; cbn; lra); lra). rewrite !minus_IZR. field. exact QN. }
  destruct (In_nth_error _ _ Ix) as [k X]. destruct (In_nth_error _ _ Iy) as [l Y]. rewrite (proj2 (H k l x y i j X Y I J)). f_equal.
  destruct (Nat.le_ge_cases k l) as [Le|Ge].
  - rewrite Nat.min_l by exact Le. rewrite (Sum k x X). replace (Z.min (dt_abs x) (dt_abs y)) with (dt_abs x); [reflexivity|]. destruct (Nat.eq_dec k l) as [->|Nk]; [rewrite X in Y; injection Y as <-; lia|]. pose proof (G3 k l x y ltac:(lia) X Y). lia.
  - rewrite Nat.min_r by exact Ge. rewrite (Sum l y Y). replace (Z.min (dt_abs x) (dt_abs y)) with (dt_abs y); [reflexivity|]. destruct (Nat.eq_dec k l) as [->|Nk]; [rewrite X in Y; injection Y as <-; lia|]. pose proof (G3 l k y x ltac:(lia) Y X). lia.
Qed.
Print Assumptions C99_elapsed.

(** ---- such expectations exist, for every number of steps and coordinates: the two points of size sqrt(steps * n) on every axis ---- *)
Open Scope R_scope.
Definition spike (k i : nat) (a : R) : nat -> vec := fun l j => a * (delta k l * delta i j).
Definition axis_noise (steps n : nat) (f : (nat -> vec) -> R) : R :=
  let c := sqrt (INR steps * INR n) in sumn steps (fun k => sumn n (fun i => (f (spike k i c) + f (spike k i (- c))) / (2 * (INR steps * INR n)))).
Theorem C99_noise : forall steps n, (0 < steps)%nat -> (0 < n)%nat -> white_noise (axis_noise steps n) steps n.
Proof.
  intros steps n Sp Np. assert (P : 0 < INR steps * INR n) by (apply Rmult_lt_0_compat; apply lt_0_INR; assumption). assert (Sq : sqrt (INR steps * INR n) * sqrt (INR steps * INR n) = INR steps * INR n) by (apply sqrt_sqrt; lra).
  constructor; unfold axis_noise.
  - intros f g H. apply sumn_ext. intros k _. apply sumn_ext. intros i _. rewrite !H. reflexivity.
  - intros a b f g. rewrite <- !sumn_scal, <- sumn_plus. apply sumn_ext. intros k _. rewrite <- !sumn_scal, <- sumn_plus. apply sumn_ext. intros i _. field; repeat split; apply not_0_INR; lia.
  - rewrite (sumn_ext steps _ (fun _ => / INR steps)).
    + rewrite sumn_const. apply Rinv_r. apply not_0_INR. lia.
    + intros k _. rewrite sumn_const. field. split; apply not_0_INR; lia.
  - intros k i _ _. apply sumn_zero. intros a _. apply sumn_zero. intros b _. unfold spike. field; repeat split; apply not_0_INR; lia.
  - intros k l i j K L I J. rewrite (sumn_ext steps _ (fun a => delta k a * (delta k l * delta i j))).
    + rewrite (sumn_delta steps k (fun _ => delta k l * delta i j) K). unfold delta at 1. destruct (Nat.eqb k l); ring.
    + intros a _. rewrite (sumn_ext n _ (fun b => delta i b * (delta k a * delta k l * delta i j))).
      * rewrite (sumn_delta n i (fun _ => delta k a * delta k l * delta i j) I). ring.
      * intros b _. unfold spike. set (c := sqrt (INR steps * INR n)) in *.
        replace (c * (delta a k * delta b i) * (c * (delta a l * delta b j)) + - c * (delta a k * delta b i) * (- c * (delta a l * delta b j))) with (2 * (c * c) * (delta a k * delta a l * (delta b i * delta b j))) by ring. rewrite Sq.
        replace (delta a k * delta a l * (delta b i * delta b j)) with (delta i b * (delta k a * delta k l * delta i j)); [field; repeat split; apply not_0_INR; lia|].
        unfold delta. destruct (Nat.eqb_spec a k) as [->|]; [|destruct (Nat.eqb_spec k a); [congruence|ring]]. rewrite Nat.eqb_refl. destruct (Nat.eqb_spec b i) as [->|]; [rewrite Nat.eqb_refl; ring|destruct (Nat.eqb_spec i b); [congruence|ring]].
Qed.
Print Assumptions C99_noise.
Close Scope R_scope.

(** ---- concrete cases ---- *)
(** correlation 1/2 *)
Definition half_corr : ndarray2 := Ndarray2 2 2 (mat_of [[1; / 2]; [/ 2; 1]]%R).
Lemma half_definite : positive_definite 2 (symmetrised (nd_at half_corr)).
Proof.
  intros x (i & I & N). cbn. assert (H : (x 0%nat <> 0 \/ x 1%nat <> 0)%R) by (destruct i as [|[|i]]; [left; exact N|right; exact N|lia]). set (a := x 0%nat) in *. set (b := x 1%nat) in *. clearbody a b.
  unfold symmetrised. cbn. assert (S1 : (0 <= (a + b / 2) * (a + b / 2))%R) by apply Rle_0_sqr. assert (S2 : (0 <= (b + a / 2) * (b + a / 2))%R) by apply Rle_0_sqr.
  assert (Q : (0 < a * a \/ 0 < b * b)%R) by (destruct H as [H|H]; [left|right]; apply Rsqr_pos_lt, H). pose proof (Rle_0_sqr a) as A. pose proof (Rle_0_sqr b) as B. unfold Rsqr in A, B. destruct Q; nra.
Qed.
Lemma motion_runs s e dim corr c m : new_motion s e dim corr c = Ok m -> dim = Z.of_nat (nd_rows (mo_corr m)) -> s = t_day 0 -> e = t_day 4 -> c = ACT360 ->
  exists m' p, motion_path m one_day true ones = (m', Ok p) /\ bm_times (mo_bm m') = Some days_2024 /\ bm_dts (mo_bm m') = Some [q1; q1; q1; q1].
Proof.
  intros N D -> -> ->. destruct (C98_made _ _ _ _ _ _ N) as (Es & Ee & Ec & _). destruct (C98_match _ _ _ _ _ _ one_day true ones N D) as [-> _]. unfold bm_generate_path, generate_increments. rewrite Es, Ee, Ec, days_2024_ok.
  change (nth_error days_2024 (List.length days_2024 - 1)) with (Some (t_day 4)). change (dt_ltb (t_day 4) (t_day 4)) with false. cbv iota.
  replace (mapM _ (pairwise days_2024)) with (@Ok (list Q) [q1; q1; q1; q1]) by (vm_compute; reflexivity). do 2 eexists. split; [reflexivity|]. split; reflexivity.
Qed.
(** two coordinates of correlation 1/2 over four days: at day 1 and day 3 their covariance is half a day *)
Example C99_case : exists m m' p, new_motion (t_day 0) (t_day 4) 2 (Some half_corr) ACT360 = Ok m /\ motion_path m one_day true ones = (m', Ok p) /\
  axis_noise 4 2 (fun z => value_at m one_day (t_day 1) 0 z * value_at m one_day (t_day 3) 1 z)%R = (/ 2 * (1 / 360))%R.
Proof.
  destruct (proj2 (C98_accepted (t_day 0) (t_day 4) 2 (Some half_corr) ACT360)) as [m M]; [split; [lia|split; [reflexivity|exact half_definite]]|].
  destruct (C98_made _ _ _ _ _ _ M) as (_ & _ & _ & _ & _ & Co & _). destruct (motion_runs _ _ _ _ _ _ M) as (m' & p & P & T & D); try reflexivity; [rewrite Co; reflexivity|].
  exists m, m', p. split; [exact M|]. split; [exact P|]. assert (L : dt_abs (t_day 0) <= dt_abs (t_day 4)) by (unfold dt_abs, t_day, us_per_day; cbn [dt_date dt_us]; lia).
  rewrite (C99_elapsed _ _ _ _ ACT360 360%Q m one_day ones m' p days_2024 _ (axis_noise 4 2) (or_introl eq_refl) M eq_refl (day_ok 0 ltac:(lia)) (day_ok 4 ltac:(lia)) L P T D (C99_noise 4 2 ltac:(lia) ltac:(lia)) (t_day 1) (t_day 3) 0 1).
  - rewrite Co. unfold symmetrised, half_corr. cbn [Nat.leb nd_at mat_of]. replace (Z.min (dt_abs (t_day 1)) (dt_abs (t_day 3)) - dt_abs (t_day 0)) with 86400000000 by (unfold dt_abs, t_day, us_per_day; cbn [dt_date dt_us]; lia).
    replace (Q2R 360) with 360%R by (unfold Q2R; cbn; lra). cbn. lra.
  - right. left. reflexivity.
  - right. right. right. left. reflexivity.
  - cbn. lia.
  - cbn. lia.
Qed.
(** A 2 x 2 matrix with the dimension 3 is accepted; the object can never generate a path. *)
Theorem C98_dimension_refuted : exists m, new_motion (t_day 0) (t_day 4) 3 (Some half_corr) ACT360 = Ok m /\ mo_dim m = 3 /\ nd_rows (mo_corr m) = 2%nat /\
  forall ops dt set draw x, (exists err, snd (motion_path (motion_history m ops) dt set draw) = Err err) /\ motion_call (motion_history m ops) x = Err ValueError.
Proof.
  destruct (proj2 (C98_accepted (t_day 0) (t_day 4) 3 (Some half_corr) ACT360)) as [m M]; [split; [lia|split; [reflexivity|exact half_definite]]|].
  destruct (C98_made _ _ _ _ _ _ M) as (_ & _ & _ & Di & _ & Co & _). exists m. split; [exact M|]. split; [exact Di|]. split; [rewrite Co; reflexivity|]. intros ops dt set draw x. apply (C98_mismatch _ _ _ _ _ _ ops dt set draw x M). rewrite Co. cbn. lia.
Qed.
Print Assumptions C98_dimension_refuted.
(** What is called a correlation matrix need be neither symmetric nor have ones on the diagonal: [[4, 9], [0, 1]] is accepted,
    the 9 is ignored, and the first coordinate has four times the variance of a Brownian motion. *)
Definition odd_corr : ndarray2 := Ndarray2 2 2 (mat_of [[4; 9]; [0; 1]]%R).
Theorem C98_correlation_refuted : exists m m' p, new_motion (t_day 0) (t_day 4) 2 (Some odd_corr) ACT360 = Ok m /\ motion_path m one_day true ones = (m', Ok p) /\
  forall E, white_noise E 4 2 -> E (fun z => value_at m one_day (t_day 4) 0 z * value_at m one_day (t_day 4) 0 z)%R = (4 * (4 / 360))%R /\
    E (fun z => value_at m one_day (t_day 4) 0 z * value_at m one_day (t_day 4) 1 z)%R = 0%R.
Proof.
  destruct (proj2 (C98_accepted (t_day 0) (t_day 4) 2 (Some odd_corr) ACT360)) as [m M].
  { split; [lia|]. split; [reflexivity|]. intros x (i & I & N). cbn [sumn nd_rows odd_corr]. assert (H : (x 0%nat <> 0 \/ x 1%nat <> 0)%R) by (destruct i as [|[|i]]; [left; exact N|right; exact N|cbn in I; lia]). set (a := x 0%nat) in *. set (b := x 1%nat) in *. clearbody a b.
    unfold symmetrised. cbn [Nat.leb nd_at odd_corr]. change (mat_of _ 0%nat 0%nat) with 4%R. change (mat_of _ 1%nat 0%nat) with 0%R. change (mat_of _ 1%nat 1%nat) with 1%R. assert (Q : (0 < a * a \/ 0 < b * b)%R) by (destruct H as [H|H]; [left|right]; apply Rsqr_pos_lt, H). pose proof (Rle_0_sqr a) as A. pose proof (Rle_0_sqr b) as B. unfold Rsqr in A, B. destruct Q; nra. }
  destruct (C98_made _ _ _ _ _ _ M) as (_ & _ & _ & _ & _ & Co & _). destruct (motion_runs _ _ _ _ _ _ M) as (m' & p & P & T & D); try reflexivity; [rewrite Co; reflexivity|].
  exists m, m', p. split; [exact M|]. split; [exact P|]. intros E W. assert (L : dt_abs (t_day 0) <= dt_abs (t_day 4)) by (unfold dt_abs, t_day, us_per_day; cbn [dt_date dt_us]; lia).
  assert (H : forall j, (j < 2)%nat -> E (fun z => value_at m one_day (t_day 4) 0 z * value_at m one_day (t_day 4) j z)%R = (symmetrised (nd_at odd_corr) 0%nat j * (4 / 360))%R).
  { intros j J. rewrite (C99_elapsed _ _ _ _ ACT360 360%Q m one_day ones m' p days_2024 _ E (or_introl eq_refl) M eq_refl (day_ok 0 ltac:(lia)) (day_ok 4 ltac:(lia)) L P T D W (t_day 4) (t_day 4) 0 j).
    - rewrite Co. f_equal. replace (Z.min (dt_abs (t_day 4)) (dt_abs (t_day 4)) - dt_abs (t_day 0)) with 345600000000 by (unfold dt_abs, t_day, us_per_day; cbn [dt_date dt_us]; lia). replace (Q2R 360) with 360%R by (unfold Q2R; cbn; lra). lra.
    - do 4 right. left. reflexivity.
    - do 4 right. left. reflexivity.
    - cbn. lia.
    - exact J. }
  split; [rewrite (H 0%nat ltac:(lia)); unfold symmetrised; cbn; lra|rewrite (H 1%nat ltac:(lia)); unfold symmetrised; cbn; lra].
Qed.
Print Assumptions C98_correlation_refuted.
Example C98_case : exists m, new_motion (t_day 0) (t_day 4) 2 (Some half_corr) ACTACT = Ok m /\ (exists m', new_motion (t_day 0) (t_day 4) 5 None ACTACT = Ok m') /\
  new_motion (t_day 0) (t_day 4) 2 (Some (Ndarray2 2 2 (mat_of [[1; 2]; [2; 1]]%R))) ACTACT = Err LinAlgError.
Proof.
  destruct (proj2 (C98_accepted (t_day 0) (t_day 4) 2 (Some half_corr) ACTACT)) as [m M]; [split; [lia|split; [reflexivity|exact half_definite]]|]. exists m. split; [exact M|].
  split; [apply (proj2 (C98_accepted (t_day 0) (t_day 4) 5 None ACTACT)); split; [lia|reflexivity]|]. apply (proj2 (C98_rejected (t_day 0) (t_day 4) 2 (Some _) ACTACT LinAlgError)). right. split; [lia|]. split; [reflexivity|]. right.
  intros H. specialize (H (fun i => match i with O => 1%R | _ => (-1)%R end)). assert (X : exists i, (i < 2)%nat /\ match i with O => 1%R | _ => (-1)%R end <> 0%R) by (exists 0%nat; split; [lia|lra]). specialize (H X). cbn in H. unfold symmetrised in H. cbn in H. lra.
Qed.
