(** Property theorems C74 (Bernoulli default paths). *)
From Verif Require Import Base Default.
From Coq Require Import Reals Lra.
Open Scope R_scope.

(** ---- specification ---- *)
(** The j-th trial of a path is at time j dt; it is a default if its draw is at most hazard x dt.  A path reads one draw per
    trial, from draw number o on. *)
Definition default_in (h : R -> R) (dt : R) (draws : nat -> R) (o j : nat) : Prop := draws (o + (j - 1))%nat <= h (INR j * dt) * dt.
(** default times of consecutive paths: the draws from o on are read up to draw number o' *)
Inductive samples (h : R -> R) (T dt : R) (draws : nat -> R) : nat -> list (option R) -> nat -> Prop :=
| samples_nil o : samples h T dt draws o [] o
| samples_default o j l o' : (1 <= j)%nat -> INR j * dt < T -> default_in h dt draws o j -> (forall i, (1 <= i < j)%nat -> ~ default_in h dt draws o i) ->
    samples h T dt draws (o + j) l o' -> samples h T dt draws o (Some (INR j * dt) :: l) o'
| samples_survives o m l o' : (forall i, (1 <= i <= m)%nat -> INR i * dt < T /\ ~ default_in h dt draws o i) -> T <= INR (S m) * dt ->
    samples h T dt draws (o + m) l o' -> samples h T dt draws o (None :: l) o'.

(** ---- lemmas ---- *)
Lemma path_spec h T dt draws o : forall fuel j r k, (1 <= j)%nat -> (forall i, (1 <= i < j)%nat -> INR i * dt < T /\ ~ default_in h dt draws o i) ->
  default_path fuel (fun t => Ok (h t)) T dt draws (INR j * dt) (o + (j - 1)) = Some (r, k) ->
  (exists i, (1 <= i)%nat /\ r = Ok (Some (INR i * dt)) /\ INR i * dt < T /\ default_in h dt draws o i /\ (forall i', (1 <= i' < i)%nat -> ~ default_in h dt draws o i') /\ k = (o + i)%nat) \/
  (exists m, r = Ok None /\ (forall i, (1 <= i <= m)%nat -> INR i * dt < T /\ ~ default_in h dt draws o i) /\ T <= INR (S m) * dt /\ k = (o + m)%nat).
Proof.
  induction fuel as [|fuel IH]; intros j r k J B E; [discriminate|]. cbn [default_path] in E. destruct (Rlt_dec (INR j * dt) T) as [Lt|Ge].
  - destruct (Rle_dec _ _) as [D|D].
    + injection E as <- <-. left. exists j. split; [exact J|]. split; [reflexivity|]. split; [exact Lt|]. split; [exact D|]. split; [intros i I; apply B; exact I|lia].
    + replace (INR j * dt + dt) with (INR (S j) * dt) in E by (rewrite S_INR; ring). replace (S (o + (j - 1))) with (o + (S j - 1))%nat in E by lia.
      apply (IH (S j)); [lia| |exact E]. intros i I. destruct (Nat.eq_dec i j) as [->|]; [split; [exact Lt|exact D]|apply B; lia].
  - injection E as <- <-. right. exists (j - 1)%nat. split; [reflexivity|]. split; [intros i I; apply B; lia|]. replace (S (j - 1)) with j by lia. split; [lra|reflexivity].
Qed.
Lemma path_fuel hz T dt draws : forall fuel t k r, default_path fuel hz T dt draws t k = Some r -> forall fuel', (fuel <= fuel')%nat -> default_path fuel' hz T dt draws t k = Some r.
Proof.
  induction fuel as [|fuel IH]; intros t k r E fuel' L; [discriminate|]. destruct fuel' as [|fuel']; [lia|]. cbn [default_path] in E |- *. destruct (Rlt_dec t T); [|exact E]. destruct (hz t) as [h|]; [|exact E]. destruct (Rle_dec _ _); [exact E|]. apply (IH _ _ _ E). lia.
Qed.
Lemma loop_fuel hz T dt draws fuel fuel' : (fuel <= fuel')%nat -> forall n k r, default_loop fuel hz T dt draws n k = Some r -> default_loop fuel' hz T dt draws n k = Some r.
Proof.
  intros L. induction n as [|n IH]; intros k r E; [exact E|]. cbn [default_loop] in E |- *. destruct (default_path fuel hz T dt draws dt k) as [[[x|e] k']|] eqn:P; [| |discriminate]; rewrite (path_fuel _ _ _ _ _ _ _ _ P _ L); [|exact E].
  destruct (default_loop fuel hz T dt draws n k') as [[[l|e] k'']|] eqn:D; [| |discriminate]; rewrite (IH _ _ D); exact E.
Qed.
Lemma path_ends hz T dt draws : 0 < dt -> forall n t k, T <= t + INR n * dt -> exists r, default_path (S n) hz T dt draws t k = Some r.
Proof.
  intros D. induction n as [|n IH]; intros t k B.
  - cbn in B |- *. destruct (Rlt_dec t T) as [L|_]; [lra|]. eexists. reflexivity.
  - destruct (IH (t + dt) (S k)) as (r & E); [rewrite S_INR in B; lra|]. remember (S n) as f eqn:Ef. cbn [default_path]. destruct (Rlt_dec t T); [|eexists; reflexivity]. destruct (hz t) as [h|]; [|eexists; reflexivity]. destruct (Rle_dec _ _); [eexists; reflexivity|]. exists r. exact E.
Qed.

(** ---- C74 ---- *)
(** Every result is a list of one default time or NaN for each path: the time of the first trial, among those strictly
    before maturity, whose draw is at most hazard x dt; NaN if there is none.  Consecutive paths read consecutive draws. *)
Theorem C74_paths : forall fuel h T dt n draws l k, default_bernoulli_paths fuel (fun t => Ok (h t)) T dt n draws = Some (Ok l, k) ->
  samples h T dt draws 0 l k /\ Z.of_nat (List.length l) = n.
Proof.
  intros fuel h T dt n draws l k E. unfold default_bernoulli_paths in E. destruct (Z.ltb_spec n 0) as [|Hn]; [discriminate|]. 
  assert (G : forall n o l k, default_loop fuel (fun t => Ok (h t)) T dt draws n o = Some (Ok l, k) -> samples h T dt draws o l k /\ List.length l = n).
  { clear. induction n as [|n IH]; intros o l k E; cbn [default_loop] in E; [injection E as <- <-; split; [constructor|reflexivity]|].
    destruct (default_path fuel _ T dt draws dt o) as [[[x|e] o']|] eqn:P; try discriminate. destruct (default_loop fuel _ T dt draws n o') as [[[l'|e] k']|] eqn:D; try discriminate. injection E as <- <-. destruct (IH _ _ _ D) as (S1 & L1). split; [|cbn; congruence].
    replace dt with (INR 1 * dt) in P at 2 by (cbn; ring). replace o with (o + (1 - 1))%nat in P by lia. destruct (path_spec h T dt draws o fuel 1 (Ok x) o' ltac:(lia) ltac:(intros; lia) P) as [(i & I & X & Lt & Df & Nd & ->)|(m & X & Nd & Ge & ->)]; injection X as ->; econstructor; eassumption. }
  destruct (G _ _ _ _ E) as (S1 & L1). split; [exact S1|]. lia.
Qed.
Print Assumptions C74_paths.

(** With a positive step every call ends, whatever the hazard rate, the draws and the maturity (and more fuel does not
    change the result); the hazard rate's exceptions are passed on. *)
Theorem C74_ends : forall hz T dt n draws, 0 < dt -> exists fuel r, forall fuel', (fuel <= fuel')%nat -> default_bernoulli_paths fuel' hz T dt n draws = Some r.
Proof.
  intros hz T dt n draws D. destruct (archimed (T / dt)) as [A _]. set (N := Z.to_nat (up (T / dt))). exists (S N).
  assert (B : T <= dt + INR N * dt).
  { assert (U : IZR (up (T / dt)) <= INR N). { unfold N. destruct (Z.le_gt_cases 0 (up (T / dt))) as [P|P]; [rewrite INR_IZR_INZ, Z2Nat.id by exact P; lra|]. apply Rle_trans with 0; [apply IZR_le; lia|apply pos_INR]. }
    assert (T / dt * dt <= INR N * dt) by (apply Rmult_le_compat_r; lra). replace (T / dt * dt) with T in * by (field; lra). lra. }
  assert (G : forall n k, exists r, default_loop (S N) hz T dt draws n k = Some r).
  { clear n. induction n as [|n IH]; intros k; cbn [default_loop]; [eexists; reflexivity|]. destruct (path_ends hz T dt draws D N dt k B) as ([[x|e] k'] & ->); [|eexists; reflexivity]. destruct (IH k') as ([[l|e] k''] & ->); eexists; reflexivity. }
  unfold default_bernoulli_paths. destruct (n <? 0)%Z; [eexists; reflexivity|]. destruct (G (Z.to_nat n) 0%nat) as (r & E). exists r. intros fuel' L. apply (loop_fuel _ _ _ _ _ _ L _ _ _ E).
Qed.
Print Assumptions C74_ends.
Theorem C74_raises : forall hz T dt n draws e, dt < T -> hz dt = Err e -> (0 < n)%Z -> forall fuel, (0 < fuel)%nat -> default_bernoulli_paths fuel hz T dt n draws = Some (Err e, 0%nat).
Proof.
  intros hz T dt n draws e L E N [|fuel] F; [lia|]. unfold default_bernoulli_paths. destruct (Z.ltb_spec n 0) as [|_]; [lia|]. destruct (Z.to_nat n) as [|m] eqn:M; [lia|]. cbn [default_loop default_path]. destruct (Rlt_dec dt T) as [_|]; [|contradiction]. rewrite E. reflexivity.
Qed.
Print Assumptions C74_raises.
(** With a zero or negative step it never ends if the hazard rate is not negative and no draw is zero. *)
Theorem C74_hangs : forall h T dt n draws, dt <= 0 -> dt < T -> (forall t, 0 <= h t) -> (forall k, 0 < draws k) -> (0 < n)%Z ->
  forall fuel, default_bernoulli_paths fuel (fun t => Ok (h t)) T dt n draws = None.
Proof.
  intros h T dt n draws D L H U N fuel. unfold default_bernoulli_paths. destruct (Z.ltb_spec n 0) as [|_]; [lia|]. destruct (Z.to_nat n) as [|m] eqn:M; [lia|].
  assert (G : forall fuel t k, t < T -> default_path fuel (fun t => Ok (h t)) T dt draws t k = None).
  { clear - D H U. induction fuel as [|fuel IH]; intros t k Lt; [reflexivity|]. cbn [default_path]. destruct (Rlt_dec t T); [|contradiction]. destruct (Rle_dec _ _) as [X|_]; [exfalso|apply IH; lra].
    pose proof (Rmult_le_compat_l (h t) dt 0 (H t) D). specialize (U k). lra. }
  cbn [default_loop]. rewrite G by exact L. reflexivity.
Qed.
Print Assumptions C74_hangs.

(** A path survives to maturity exactly when every trial's draw exceeds hazard x dt: for independent uniform draws, an event
    of probability the product of the 1 - hazard(j dt) dt over the trials j.  There are as many trials as multiples of dt
    strictly between 0 and the maturity. *)
Lemma samples_first h T dt draws o x l k : samples h T dt draws o (x :: l) k -> 0 < dt ->
  forall m, (forall j, (1 <= j)%nat -> (INR j * dt < T <-> (j <= m)%nat)) -> (x = None <-> forall j, (1 <= j <= m)%nat -> draws (o + (j - 1))%nat > h (INR j * dt) * dt).
Proof.
  intros Sp D m Hm. inversion Sp as [|o0 j l0 o' J Lt Df Nd Sl E1 E2 E3|o0 m' l0 o' Nd Ge Sl E1 E2 E3]; subst.
  - split; [discriminate|]. intros A. assert (Jm : (1 <= j <= m)%nat) by (split; [exact J|apply (Hm j J); exact Lt]). specialize (A j Jm). unfold default_in in Df. lra.
  - split; [|reflexivity]. intros _ j Jm. assert (j <= m')%nat.
    { apply Nat.nlt_ge. intros X. assert (T <= INR j * dt). { apply Rle_trans with (INR (S m') * dt); [exact Ge|]. apply Rmult_le_compat_r; [lra|]. apply le_INR. lia. } destruct (Hm j ltac:(lia)) as [_ B]. specialize (B ltac:(lia)). lra. }
    destruct (Nd j ltac:(lia)) as (_ & X). unfold default_in in X. lra.
Qed.
Theorem C74_survival : forall fuel h T dt n draws x l k m, 0 < dt -> default_bernoulli_paths fuel (fun t => Ok (h t)) T dt n draws = Some (Ok (x :: l), k) ->
  (forall j, (1 <= j)%nat -> (INR j * dt < T <-> (j <= m)%nat)) -> (x = None <-> forall j, (1 <= j <= m)%nat -> draws (j - 1)%nat > h (INR j * dt) * dt).
Proof.
  intros fuel h T dt n draws x l k m D E Hm. destruct (C74_paths _ _ _ _ _ _ _ _ E) as (S & _). exact (samples_first _ _ _ _ _ _ _ _ S D m Hm).
Qed.
Print Assumptions C74_survival.

(** A higher hazard rate never delays the default of the first path (with the same draws). *)
Theorem C74_monotone : forall fuel h h' T dt n draws x l k x' l' k', 0 < dt -> (forall t, h t <= h' t) ->
  default_bernoulli_paths fuel (fun t => Ok (h t)) T dt n draws = Some (Ok (x :: l), k) -> default_bernoulli_paths fuel (fun t => Ok (h' t)) T dt n draws = Some (Ok (x' :: l'), k') ->
  match x, x' with Some t, Some t' => t' <= t | Some _, None => False | None, _ => True end.
Proof.
  intros fuel h h' T dt n draws x l k x' l' k' D H E E'. apply C74_paths in E, E'. destruct E as (S & _), E' as (S' & _). destruct x as [t|]; [|exact I].
  inversion S as [|o0 j l0 o' J Lt Df Nd Sl E1 E2 E3|]; subst.
  assert (Df' : default_in h' dt draws 0 j) by (unfold default_in in *; pose proof (Rmult_le_compat_r dt _ _ ltac:(lra) (H (INR j * dt))); lra).
  inversion S' as [|o0 j' l0' o'' J' Lt' Df'' Nd' Sl' E1' E2' E3'|o0 m l0' o'' Nd' Ge Sl' E1' E2' E3']; subst.
  - apply Rmult_le_compat_r; [lra|]. apply le_INR. apply Nat.nlt_ge. intros X. apply (Nd' j); [lia|exact Df'].
  - assert (j <= m)%nat. { apply Nat.nlt_ge. intros X. assert (INR (Datatypes.S m) * dt <= INR j * dt) by (apply Rmult_le_compat_r; [lra|]; apply le_INR; lia). lra. }
    apply (Nd' j); [lia|exact Df'].
Qed.
Print Assumptions C74_monotone.
(** but the later paths read other draws: here the second path defaults earlier under the hazard rate 1/4 than under 1/2 *)
Theorem C74_common_draws_refuted : exists draws l k l' k', (forall i, 0 < draws i < 1) /\
  default_bernoulli_paths 3 (fun _ => Ok (1 / 4)) (5 / 2) 1 2 draws = Some (Ok l, k) /\ default_bernoulli_paths 3 (fun _ => Ok (1 / 2)) (5 / 2) 1 2 draws = Some (Ok l', k') /\
  nth_error l 1 = Some (Some 1) /\ nth_error l' 1 = Some (Some (1 + 1)).
Proof.
  exists (fun i => match i with 0%nat => 3 / 8 | 2%nat => 1 / 8 | _ => 3 / 4 end). eexists _, _, _, _. split; [intros [|[|[|i]]]; lra|].
  unfold default_bernoulli_paths. change (2 <? 0)%Z with false. change (Z.to_nat 2) with 2%nat. cbn [default_loop default_path].
  repeat match goal with |- context [Rlt_dec ?a ?b] => destruct (Rlt_dec a b); try lra | |- context [Rle_dec ?a ?b] => destruct (Rle_dec a b); try lra end.
  split; [reflexivity|]. split; [reflexivity|]. split; reflexivity.
Qed.
Print Assumptions C74_common_draws_refuted.
Example C74_case : default_bernoulli_paths 4 (fun t => Ok (1 / 4)) 2 (1 / 2) 2 (fun i => match i with 1%nat => 1 / 16 | _ => 1 / 2 end) = Some (Ok [Some (1 / 2 + 1 / 2); None], 5%nat).
Proof.
  unfold default_bernoulli_paths. change (2 <? 0)%Z with false. change (Z.to_nat 2) with 2%nat. cbn [default_loop default_path].
  repeat match goal with |- context [Rlt_dec ?a ?b] => destruct (Rlt_dec a b); try lra | |- context [Rle_dec ?a ?b] => destruct (Rle_dec a b); try lra end. reflexivity.
Qed.
Print Assumptions C74_case.

(** The last interval is not sampled when the maturity is a multiple m of the step: a surviving path has m - 1 trials, not m. *)
Theorem C74_trials : forall fuel h dt n draws m l k, 0 < dt -> (1 <= m)%nat -> default_bernoulli_paths fuel (fun t => Ok (h t)) (INR m * dt) dt n draws = Some (Ok (None :: l), k) ->
  samples h (INR m * dt) dt draws (m - 1) l k.
Proof.
  intros fuel h dt n draws m l k D M E. apply C74_paths in E. destruct E as (S & _). inversion S as [| |o0 m' l0 o' Nd Ge Sl E1 E2 E3]; subst. assert (E : m' = (m - 1)%nat).
  { assert (B : (m <= Datatypes.S m')%nat). { apply INR_le. apply (Rmult_le_reg_r dt); assumption. }
    destruct (Nat.eq_dec m' (m - 1)) as [|X]; [assumption|]. destruct (Nd m ltac:(lia)) as (Lt & _). lra. }
  subst m'. exact Sl.
Qed.
Print Assumptions C74_trials.
(** With one step to maturity a default is impossible, however large the hazard rate. *)
Theorem C74_last_interval_refuted : forall fuel h dt n draws l k, 0 < dt -> default_bernoulli_paths fuel (fun t => Ok (h t)) dt dt n draws = Some (Ok l, k) -> Forall (fun x => x = None) l /\ k = 0%nat.
Proof.
  intros fuel h dt n draws l k D E. apply C74_paths in E. destruct E as (S & _). clear n. revert S. generalize 0%nat as o. induction l as [|x l IH]; intros o S; inversion S as [|o0 j l0 o' J Lt Df Nd Sl E1 E2 E3|o0 m l0 o' Nd Ge Sl E1 E2 E3]; subst.
  - split; [constructor|reflexivity].
  - exfalso. assert (1 <= INR j) by (change 1 with (INR 1); apply le_INR; exact J). pose proof (Rmult_le_compat_r dt 1 (INR j) ltac:(lra) H). lra.
  - destruct m as [|m]; [|destruct (Nd 1%nat ltac:(lia)) as (X & _); cbn in X; lra]. rewrite Nat.add_0_r in Sl. destruct (IH _ Sl) as (F & ->). split; [constructor; auto|reflexivity].
Qed.
Print Assumptions C74_last_interval_refuted.
