(** Tenor strings: C97. *)
From Verif Require Import Base PyDate Scheduler Bond BondFacts Swap Tenor.
From Coq Require Import Ascii Decimal DecimalString DecimalPos.
Open Scope Z_scope.

(** ---- specification ---- *)
Definition whitespace : list ascii := List.map ascii_of_nat [9; 10; 11; 12; 13; 32]%nat.
Definition digits : list ascii := ["0"; "1"; "2"; "3"; "4"; "5"; "6"; "7"; "8"; "9"]%char.
(** the number a digit stands for is its place in [digits] *)
Inductive denotes : list ascii -> Z -> Prop :=
| D_nil : denotes [] 0
| D_snoc l v c k : denotes l v -> nth_error digits k = Some c -> denotes (l ++ [c]) (10 * v + Z.of_nat k).
(** groups of digits joined by single underscores *)
Fixpoint joined (gs : list (list ascii)) : list ascii :=
  match gs with [] => [] | [g] => g | g :: gs => g ++ "_"%char :: joined gs end.
(** an integer literal as int() reads it *)
Definition literal (l : list ascii) (n : Z) : Prop :=
  exists w1 sg gs w2 v, Forall (fun c => In c whitespace) w1 /\ Forall (fun c => In c whitespace) w2 /\
    gs <> [] /\ Forall (fun g => g <> []) gs /\ denotes (List.concat gs) v /\
    l = w1 ++ sg ++ joined gs ++ w2 /\ (sg = [] /\ n = v \/ sg = ["+"%char] /\ n = v \/ sg = ["-"%char] /\ n = - v).

(** ---- proofs ---- *)
Lemma space_iff c : is_space c = true <-> In c whitespace.
Proof.
  split.
  - destruct c as [[] [] [] [] [] [] [] []]; vm_compute; try discriminate; intros _; tauto.
  - cbn. intros [<- | [<- | [<- | [<- | [<- | [<- | []]]]]]]; reflexivity.
Qed.
Lemma digit_iff c k : digit c = Some k <-> exists n, k = Z.of_nat n /\ nth_error digits n = Some c.
Proof.
  split.
  - intros E. exists (Z.to_nat k). destruct c as [[] [] [] [] [] [] [] []]; vm_compute in E; try discriminate; injection E as <-; split; reflexivity.
  - intros (n & -> & E). do 10 (destruct n as [|n]; [injection E as <-; reflexivity|]). destruct n; discriminate.
Qed.
Lemma space_digit c : is_space c = true -> digit c = None /\ Ascii.eqb c "_" = false /\ Ascii.eqb c "+" = false /\ Ascii.eqb c "-" = false.
Proof. intros E. destruct c as [[] [] [] [] [] [] [] []]; vm_compute in E; try discriminate; repeat split; reflexivity. Qed.
Lemma digit_plain c k : digit c = Some k -> is_space c = false /\ Ascii.eqb c "_" = false /\ Ascii.eqb c "+" = false /\ Ascii.eqb c "-" = false.
Proof. intros E. destruct c as [[] [] [] [] [] [] [] []]; vm_compute in E; try discriminate; repeat split; reflexivity. Qed.
Lemma skip_app w l : Forall (fun c => In c whitespace) w -> skip_spaces (w ++ l) = skip_spaces l.
Proof. induction 1 as [|c w H _ IH]; [reflexivity|]. cbn. apply space_iff in H. rewrite H. exact IH. Qed.
Lemma skip_split l : exists w, Forall (fun c => In c whitespace) w /\ l = w ++ skip_spaces l.
Proof.
  induction l as [|c l (w & W & E)]; [exists []; split; [constructor|reflexivity]|]. cbn [skip_spaces]. destruct (is_space c) eqn:S.
  - exists (c :: w). split; [constructor; [apply space_iff, S|exact W]|cbn; congruence].
  - exists []. split; [constructor|reflexivity].
Qed.
Lemma skip_all w : Forall (fun c => In c whitespace) w -> skip_spaces w = [].
Proof. intros W. rewrite <- (app_nil_r w), (skip_app w [] W). reflexivity. Qed.

(** reading from a running value *)
Inductive from : Z -> list ascii -> Z -> Prop :=
| F_nil v : from v [] v
| F_cons v c k l w : digit c = Some k -> from (10 * v + k) l w -> from v (c :: l) w.
Lemma from_app v l m w : from v (l ++ m) w <-> exists u, from v l u /\ from u m w.
Proof.
  revert v; induction l as [|c l IH]; intros v; cbn.
  - split; [intros H; exists v; split; [constructor|exact H]|intros (u & A & B); inversion A; subst; exact B].
  - split.
    + intros H. inversion H as [|? ? k ? ? D F]; subst. apply IH in F. destruct F as (u & A & B). exists u. split; [econstructor; eassumption|exact B].
    + intros (u & A & B). inversion A as [|? ? k ? ? D F]; subst. econstructor; [exact D|]. apply IH. eauto.
Qed.
Lemma denotes_from l v : denotes l v <-> from 0 l v.
Proof.
  split.
  - induction 1 as [|l v c k _ IH K]; [constructor|]. apply from_app. exists v. split; [exact IH|]. econstructor; [apply digit_iff; eauto|constructor].
  - revert v. induction l as [|c l IH] using rev_ind; intros v F; [inversion F; constructor|]. apply from_app in F. destruct F as (u & A & B). inversion B as [|? ? k ? ? D F]; subst. inversion F; subst.
    apply digit_iff in D. destruct D as (n & -> & D). constructor; [apply IH, A|exact D].
Qed.
Lemma scan_sound l : forall b v w rest, scan_digits b v l = Some (w, rest) -> exists gs, l = joined gs ++ rest /\ from v (List.concat gs) w /\
  (b = false -> gs <> [] /\ Forall (fun g => g <> []) gs) /\ (b = true -> gs <> [] /\ Forall (fun g => g <> []) (List.tl gs)) /\ (match rest with c :: _ => digit c = None /\ Ascii.eqb c "_" = false | [] => True end).
Proof.
  induction l as [|c l IH]; intros b v w rest E; cbn [scan_digits] in E.
  - destruct b; [|discriminate]. injection E as <- <-. exists [[]]. repeat split; try discriminate; constructor.
  - destruct (digit c) as [k|] eqn:D.
    + destruct (IH _ _ _ _ E) as (gs & -> & F & _ & T & R). destruct (T eq_refl) as [Ne Fo]. destruct gs as [|g gs]; [contradiction|]. exists ((c :: g) :: gs). split; [destruct gs; reflexivity|]. split; [cbn; econstructor; eassumption|]. split; [intros _; split; [discriminate|constructor; [discriminate|exact Fo]]|]. split; [intros _; split; [discriminate|exact Fo]|exact R].
    + destruct (Ascii.eqb c "_") eqn:U.
      * destruct b; [|discriminate]. apply Ascii.eqb_eq in U. subst c. destruct (IH _ _ _ _ E) as (gs & -> & F & T & _ & R). destruct (T eq_refl) as [Ne Fo]. exists ([] :: gs). split; [destruct gs; [contradiction|reflexivity]|]. split; [exact F|]. split; [discriminate|]. split; [intros _; split; [discriminate|exact Fo]|exact R].
      * destruct b; [|discriminate]. injection E as <- <-. exists [[]]. split; [reflexivity|]. split; [constructor|]. split; [discriminate|]. split; [intros _; split; [discriminate|constructor]|split; assumption].
Qed.
Lemma scan_group g : forall v w b rest, g <> [] -> from v g w -> scan_digits b v (g ++ rest) = scan_digits true w rest.
Proof.
  induction g as [|c g IH]; intros v w b rest Ne F; [contradiction|]. inversion F as [|? ? k ? ? D F']; subst. cbn [List.app scan_digits]. rewrite D. destruct g as [|c' g]; [inversion F'; subst; reflexivity|]. apply IH; [discriminate|exact F'].
Qed.
Lemma scan_complete gs : forall v w b rest, gs <> [] -> Forall (fun g => g <> []) gs -> from v (List.concat gs) w ->
  (match rest with c :: _ => digit c = None /\ Ascii.eqb c "_" = false | [] => True end) -> scan_digits b v (joined gs ++ rest) = Some (w, rest).
Proof.
  induction gs as [|g gs IH]; intros v w b rest Ne Fo F R; [contradiction|]. inversion Fo as [|? ? Hg Fo']; subst. cbn [List.concat] in F. apply from_app in F. destruct F as (u & A & B).
  destruct gs as [|g' gs].
  - cbn [joined]. rewrite (scan_group g v u b rest Hg A). inversion B; subst. destruct rest as [|c rest]; [reflexivity|]. destruct R as [R1 R2]. cbn [scan_digits]. rewrite R1, R2. reflexivity.
  - change (joined (g :: g' :: gs)) with (g ++ "_"%char :: joined (g' :: gs)). rewrite <- app_assoc, (scan_group g v u b _ Hg A). cbn [List.app scan_digits digit]. change (digit "_") with (@None Z). cbn iota. change (Ascii.eqb "_" "_") with true. cbn iota. apply IH; [discriminate|exact Fo'|exact B|exact R].
Qed.
Lemma joined_head gs : gs <> [] -> Forall (fun g => g <> []) gs -> forall v w, from v (List.concat gs) w -> exists c l k, joined gs = c :: l /\ digit c = Some k.
Proof.
  intros Ne Fo v w F. destruct gs as [|g gs]; [contradiction|]. inversion Fo as [|? ? Hg _]; subst. destruct g as [|c g]; [contradiction|]. cbn [List.concat List.app] in F. inversion F as [|? ? k ? ? D _]; subst. destruct gs as [|g' gs]; cbn [joined List.app]; eauto.
Qed.
Lemma int_of_str_iff l n : int_of_str l = Ok n <-> literal l n.
Proof.
  unfold int_of_str. split.
  - destruct (skip_split l) as (w1 & W1 & El). set (l1 := skip_spaces l) in *.
    assert (S : exists sg z l2, (match l1 with c :: l' => if Ascii.eqb c "+" then (1, l') else if Ascii.eqb c "-" then (-1, l') else (1, l1) | [] => (1, l1) end) = (z, l2) /\ l1 = sg ++ l2 /\ (sg = [] /\ z = 1 \/ sg = ["+"%char] /\ z = 1 \/ sg = ["-"%char] /\ z = -1)).
    { destruct l1 as [|c l']; [exists [], 1, []; repeat split; left; split; reflexivity|]. destruct (Ascii.eqb_spec c "+"); [subst c; exists ["+"%char], 1, l'; repeat split; right; left; split; reflexivity|]. destruct (Ascii.eqb_spec c "-"); [subst c; exists ["-"%char], (-1), l'; repeat split; right; right; split; reflexivity|]. exists [], 1, (c :: l'). repeat split. left. split; reflexivity. }
    destruct S as (sg & z & l2 & -> & El1 & Sg). destruct (scan_digits false 0 l2) as [[v rest]|] eqn:Sc; [|discriminate]. destruct (skip_spaces rest) as [|c r] eqn:Sr; [|discriminate]. intros E. injection E as <-.
    destruct (scan_sound _ _ _ _ _ Sc) as (gs & El2 & F & T & _ & _). destruct (T eq_refl) as [Ne Fo]. destruct (skip_split rest) as (w2 & W2 & Er). rewrite Sr, app_nil_r in Er. subst w2.
    exists w1, sg, gs, rest, v. split; [exact W1|]. split; [exact W2|]. split; [exact Ne|]. split; [exact Fo|]. split; [apply denotes_from, F|]. split; [rewrite El, El1, El2; reflexivity|].
    destruct Sg as [[-> ->] | [[-> ->] | [-> ->]]]; [left|right; left|right; right]; (split; [reflexivity|lia]).
  - intros (w1 & sg & gs & w2 & v & W1 & W2 & Ne & Fo & De & -> & Sg). apply denotes_from in De. rewrite (skip_app w1 _ W1). destruct (joined_head gs Ne Fo _ _ De) as (c & j & k & Ej & Dc). destruct (digit_plain _ _ Dc) as (P1 & P2 & P3 & P4).
    assert (R : match w2 with c :: _ => digit c = None /\ Ascii.eqb c "_" = false | [] => True end). { destruct W2 as [|x w2 Hx _]; [exact I|]. apply space_iff, space_digit in Hx. tauto. }
    pose proof (scan_complete gs 0 v false w2 Ne Fo De R) as Sc.
    destruct Sg as [[-> ->] | [[-> ->] | [-> ->]]].
    + cbn [List.app]. rewrite Ej in Sc |- *. cbn [List.app skip_spaces] in Sc |- *. rewrite P1. cbn [List.app]. rewrite P3, P4, Sc, (skip_all w2 W2). apply (f_equal Ok); lia.
    + cbn [List.app skip_spaces]. change (is_space "+") with false. cbn iota. change (Ascii.eqb "+" "+") with true. cbn iota. rewrite Sc, (skip_all w2 W2). apply (f_equal Ok); lia.
    + cbn [List.app skip_spaces]. change (is_space "-") with false. cbn iota. change (Ascii.eqb "-" "+") with false. change (Ascii.eqb "-" "-") with true. cbn iota. rewrite Sc, (skip_all w2 W2). apply (f_equal Ok); lia.
Qed.

(** C97.  A tenor string means n years (months) exactly when it is an integer literal, as int() reads it, followed by Y (M). *)
Theorem C97_tenor : forall s n,
  (parse_tenor s = Years n <-> exists l, list_ascii_of_string s = l ++ ["Y"%char] /\ literal l n) /\
  (parse_tenor s = Months n <-> exists l, list_ascii_of_string s = l ++ ["M"%char] /\ literal l n).
Proof.
  intros s n. unfold parse_tenor. set (l := list_ascii_of_string s).
  assert (G : forall u, (exists m, l = m ++ [u] /\ literal m n) <-> l <> [] /\ last l Ascii.zero = u /\ int_of_str (removelast l) = Ok n).
  { intros u. rewrite int_of_str_iff. split.
    - intros (m & -> & H). split; [destruct m; discriminate|]. rewrite last_last, removelast_last. split; [reflexivity|exact H].
    - intros (Ne & La & Li). exists (removelast l). split; [rewrite <- La; apply app_removelast_last, Ne|exact Li]. }
  rewrite !G. clear G. destruct (int_of_str (removelast l)) as [k|e] eqn:E.
  - assert (Ne : l <> []). { intros N. rewrite N in E. discriminate. }
    destruct (Ascii.eqb_spec (last l Ascii.zero) "Y") as [Hy|Hy]; [|destruct (Ascii.eqb_spec (last l Ascii.zero) "M") as [Hm|Hm]].
    + rewrite Hy. split; (split; [intros H; try discriminate; injection H as ->; auto|intros (_ & Q & H); try discriminate; congruence]).
    + rewrite Hm. split; (split; [intros H; try discriminate; injection H as ->; auto|intros (_ & Q & H); try discriminate; congruence]).
    + split; (split; [discriminate|intros (_ & Q & _); contradiction]).
  - split; (split; [discriminate|intros (_ & _ & Q); discriminate]).
Qed.
Print Assumptions C97_tenor.

(** str(n) followed by Y or M is read back as n. *)
Definition str (n : Z) : string := NilZero.string_of_int (Z.to_int n).

Fixpoint chars (d : uint) : list ascii :=
  match d with
  | Nil => [] | D0 d => "0"%char :: chars d | D1 d => "1"%char :: chars d | D2 d => "2"%char :: chars d | D3 d => "3"%char :: chars d | D4 d => "4"%char :: chars d
  | D5 d => "5"%char :: chars d | D6 d => "6"%char :: chars d | D7 d => "7"%char :: chars d | D8 d => "8"%char :: chars d | D9 d => "9"%char :: chars d
  end.
Lemma chars_spec d : list_ascii_of_string (NilEmpty.string_of_uint d) = chars d.
Proof. induction d; cbn; try reflexivity; f_equal; assumption. Qed.
Lemma from_acc d : forall p, from (Zpos p) (chars d) (Zpos (Pos.of_uint_acc d p)).
Proof.
  induction d; intros p; cbn [chars Pos.of_uint_acc]; first [exact (F_nil _) | eapply F_cons; [reflexivity|]; match goal with |- from ?a _ (Zpos (Pos.of_uint_acc _ ?q)) => replace a with (Zpos q) by (match goal with |- context [Z.of_nat ?x] => let y := eval vm_compute in x in change x with y end; lia) end; apply IHd].
Qed.
Lemma from_uint d : from 0 (chars d) (Z.of_uint d).
Proof.
  unfold Z.of_uint. induction d; cbn [chars Pos.of_uint Z.of_N]; first [exact (F_nil _) | eapply F_cons; [reflexivity|]; first [exact IHd | apply from_acc]].
Qed.
Lemma chars_ne d : d <> Nil -> chars d <> [].
Proof. destruct d; cbn; congruence. Qed.
Lemma literal_uint d sg n : d <> Nil -> (sg = [] /\ n = Z.of_uint d \/ sg = ["+"%char] /\ n = Z.of_uint d \/ sg = ["-"%char] /\ n = - Z.of_uint d) -> literal (sg ++ chars d) n.
Proof.
  intros Ne Sg. exists [], sg, [chars d], [], (Z.of_uint d). split; [constructor|]. split; [constructor|]. split; [discriminate|]. split; [constructor; [apply chars_ne, Ne|constructor]|]. split; [apply denotes_from; cbn [List.concat]; rewrite app_nil_r; apply from_uint|]. split; [cbn [joined List.app]; rewrite app_nil_r; reflexivity|exact Sg].
Qed.
Lemma to_uint_ne p : Pos.to_uint p <> Nil.
Proof. exact (Unsigned.to_uint_nonnil p). Qed.
Lemma las_app s t : list_ascii_of_string (s ++ t)%string = list_ascii_of_string s ++ list_ascii_of_string t.
Proof. induction s as [|c s IH]; [reflexivity|]. cbn. rewrite IH. reflexivity. Qed.
Lemma nilzero d : d <> Nil -> NilZero.string_of_uint d = NilEmpty.string_of_uint d.
Proof. destruct d; [contradiction|reflexivity..]. Qed.
Lemma str_literal n : literal (list_ascii_of_string (str n)) n.
Proof.
  unfold str. destruct n as [|p|p]; cbn [Z.to_int].
  - apply (literal_uint (D0 Nil) [] 0); [discriminate|left; split; reflexivity].
  - cbn [NilZero.string_of_int]. rewrite (nilzero _ (to_uint_ne p)), chars_spec. apply (literal_uint _ []); [apply to_uint_ne|]. left. split; [reflexivity|]. unfold Z.of_uint. rewrite Unsigned.of_to. reflexivity.
  - cbn [NilZero.string_of_int list_ascii_of_string]. rewrite (nilzero _ (to_uint_ne p)), chars_spec. apply (literal_uint _ ["-"%char]); [apply to_uint_ne|]. right. right. split; [reflexivity|]. unfold Z.of_uint. rewrite Unsigned.of_to. reflexivity.
Qed.
Theorem C97_printed : forall n, parse_tenor (str n ++ "Y") = Years n /\ parse_tenor (str n ++ "M") = Months n.
Proof.
  intros n. split; [apply (C97_tenor (str n ++ "Y") n)|apply (C97_tenor (str n ++ "M") n)]; exists (list_ascii_of_string (str n)); (split; [apply las_app|apply str_literal]).
Qed.
Print Assumptions C97_printed.

(** A literal has one value, so years and months never clash; anything else is ValueError, before any date is computed. *)
Theorem C97_otherwise : forall s a, (forall n l, list_ascii_of_string s = l ++ ["Y"%char] \/ list_ascii_of_string s = l ++ ["M"%char] -> ~ literal l n) ->
  parse_tenor s = BadTenor /\ calculate_dated_date (with_tenor s a) = Err ValueError /\ new_bond_str s a = Err ValueError.
Proof.
  intros s a H. assert (E : parse_tenor s = BadTenor).
  { destruct (parse_tenor s) as [n|n|] eqn:E; [| |reflexivity]; exfalso; [apply (C97_tenor s n) in E|apply (C97_tenor s n) in E]; destruct E as (l & L & Li); apply (H n l); auto. }
  split; [exact E|]. assert (D : calculate_dated_date (with_tenor s a) = Err ValueError) by (unfold calculate_dated_date, with_tenor; cbn [b_tenor]; rewrite E; reflexivity).
  split; [exact D|]. unfold new_bond_str, new_bond. rewrite D. reflexivity.
Qed.
Print Assumptions C97_otherwise.

(** A bond's dated date and a swap's end are the stated number of years or months away. *)
Theorem C97_dates : forall s n a, literal s n ->
  calculate_dated_date (with_tenor (string_of_list_ascii (s ++ ["Y"%char])) a) = add_months (maturity_date a) (- (12 * n)) /\
  calculate_dated_date (with_tenor (string_of_list_ascii (s ++ ["M"%char])) a) = add_months (maturity_date a) (- n) /\
  (forall w, sw_tenor w = parse_tenor (string_of_list_ascii (s ++ ["Y"%char])) -> calculate_start_end_accrual_dates w = do st <- calculate_settlement_date (sw_purchase w) (sw_settlement w) (sw_cal w); do e <- add_months st (12 * n); Ok (st, e)) /\
  (forall w, sw_tenor w = parse_tenor (string_of_list_ascii (s ++ ["M"%char])) -> calculate_start_end_accrual_dates w = do st <- calculate_settlement_date (sw_purchase w) (sw_settlement w) (sw_cal w); do e <- add_months st n; Ok (st, e)).
Proof.
  intros s n a L. unfold calculate_dated_date, calculate_start_end_accrual_dates, with_tenor. cbn [b_tenor maturity_date].
  assert (Y : parse_tenor (string_of_list_ascii (s ++ ["Y"%char])) = Years n) by (apply (C97_tenor _ n); exists s; rewrite list_ascii_of_string_of_list_ascii; split; [reflexivity|exact L]).
  assert (M : parse_tenor (string_of_list_ascii (s ++ ["M"%char])) = Months n) by (apply (C97_tenor _ n); exists s; rewrite list_ascii_of_string_of_list_ascii; split; [reflexivity|exact L]).
  rewrite Y, M. split; [reflexivity|]. split; [reflexivity|]. split; intros w ->; reflexivity.
Qed.
Print Assumptions C97_dates.

(** Not true of the code: only "[int]Y" and "[int]M" with a plain number are accepted ("is not a valid tenor unit indicator.  Tenor must be in the form ..."). *)
Theorem C97_plain_refuted : parse_tenor " +1_0 Y" = Years 10 /\ parse_tenor "-5Y" = Years (-5) /\ parse_tenor "007M" = Months 7.
Proof. repeat split; reflexivity. Qed.
Print Assumptions C97_plain_refuted.

(** "10Y" is ten years, "6M" six months; "10y", "Y", "1__0Y", "_1Y", "1.5Y" and the empty string are not tenors. *)
Example C97_case : parse_tenor "10Y" = Years 10 /\ str 10 = "10"%string /\ parse_tenor "6M" = Months 6 /\
  Forall (fun s => parse_tenor s = BadTenor) ["10y"; "Y"; ""; "1__0Y"; "_1Y"; "1_Y"; "1.5Y"; "+ 1Y"; "Y10"]%string.
Proof. repeat split; try reflexivity. repeat constructor. Qed.
Print Assumptions C97_case.
