(** Property theorem C92: accrued interest asked for another date. *)
From Verif Require Import Base PyDate PyDateFacts DayCount DayCountFacts Holidays Scheduler SchedulerFacts KeyRate PyList Curve Cashflow Bond BondFacts P_Bond.
From Coq Require Import Lra Lqa Reals.
Open Scope Z_scope.
Ltac lra := first [Lra.lra | Lqa.lra].

(** bond.calculate_accrued_interest(d) *)
Definition accrued_on (b : bond) (d : date) : res R := calculate_accrued_interest (args b) (coupon_payment b) (dated_date b) (coupons b) (settlement_date b) (Some d).

(** Corporate bonds raise on every date; zero coupon bonds accrue nothing. *)
Theorem C92_corporate : forall b d, (freq (args b) = ZERO_COUPON -> accrued_on b d = Ok 0%R) /\ (freq (args b) <> ZERO_COUPON -> cls (args b) = Corporate -> accrued_on b d = Err AttributeError).
Proof. intros b d. unfold accrued_on, calculate_accrued_interest. split; [intros ->; reflexivity|]. intros F ->. destruct (freq (args b)); try congruence; reflexivity. Qed.
Print Assumptions C92_corporate.

Section Treasury.
  Context (a : bond_args) (b : bond) (u : date) (us : list date) (d sd : date).
  Hypothesis (B : new_bond a = Ok b) (F : freq a <> ZERO_COUPON) (T : cls a = UsTreasury) (U : unadjusted b = u :: us) (S : calculate_settlement_date d (b_settlement a) (b_cal a) = Ok sd).

  Let body (reference : date) : res R :=
    do period <- (if reference <=? u then Ok (dated_date b, u)
                  else let i := bisect_right (List.map bp_date (coupons b)) (purchase_date a) in do p <- nth_unadjusted (coupons b) (i - 1); do f <- nth_unadjusted (coupons b) i; Ok (p, f));
    do num <- acc (b_dcc a) (fst period) (settlement_date b); do den <- acc (b_dcc a) (fst period) (snd period); do frac <- qdiv num den; Ok (Q2R frac * coupon_payment b)%R.
  Lemma both : body (settlement_date b) = Ok (accrued_interest b) /\ accrued_on b d = body sd /\ dated_date b <= settlement_date b.
  Proof.
    destruct (new_bond_inv _ _ B) as (Ea & _ & _ & _ & _ & _ & Ac & _). unfold accrued_on. rewrite Ea.
    assert (H0 : nth_unadjusted (coupons b) 0 = Ok u) by (change 0 with (Z.of_nat 0); apply nth_unadjusted_ok; fold (unadjusted b); rewrite U; reflexivity).
    unfold calculate_accrued_interest in *. rewrite T, S in *. destruct (settlement_date b <? dated_date b) eqn:L; [destruct (freq a); try congruence; discriminate|].
    rewrite H0 in *. cbn [bind] in *. destruct (freq a); try congruence; (split; [exact Ac|split; [reflexivity|lia]]).
  Qed.
End Treasury.

(** Treasuries.  u is the first unadjusted coupon date, sd the settlement of a purchase on d.  If sd and the bond's own settlement are on the same
    side of u the date changes nothing at all; *)
Theorem C92_same_side : forall a b u us d sd, new_bond a = Ok b -> freq a <> ZERO_COUPON -> cls a = UsTreasury -> unadjusted b = u :: us ->
  calculate_settlement_date d (b_settlement a) (b_cal a) = Ok sd -> (sd <= u <-> settlement_date b <= u) -> accrued_on b d = Ok (accrued_interest b).
Proof.
  intros a b u us d sd B F T U S Side. destruct (both a b u us d sd B F T U S) as (H1 & -> & _). replace (sd <=? u) with (settlement_date b <=? u) by (apply eq_true_iff_eq; lia). exact H1.
Qed.
Print Assumptions C92_same_side.

(** if d settles by u but the bond settles later, interest accrues over the first period up to the bond's own settlement, beyond the period's end; *)
Theorem C92_before : forall a b u us d sd, new_bond a = Ok b -> freq a <> ZERO_COUPON -> cls a = UsTreasury -> unadjusted b = u :: us ->
  calculate_settlement_date d (b_settlement a) (b_cal a) = Ok sd -> sd <= u -> forall v, accrued_on b d = Ok v <->
  exists num den, compute_accrual_length (Day (dated_date b)) (Day (settlement_date b)) (b_dcc a) = Ok num /\
    compute_accrual_length (Day (dated_date b)) (Day u) (b_dcc a) = Ok den /\ ~ (den == 0)%Q /\ v = (Q2R (num / den) * coupon_payment b)%R.
Proof.
  intros a b u us d sd B F T U S L v. destruct (both a b u us d sd B F T U S) as (_ & -> & _). replace (sd <=? u) with true by lia. cbn [bind fst snd]. unfold acc.
  split.
  - destruct (compute_accrual_length (Day (dated_date b)) (Day (settlement_date b)) (b_dcc a)) as [num|] eqn:En; cbn [bind]; [|discriminate]. destruct (compute_accrual_length (Day (dated_date b)) (Day u) (b_dcc a)) as [den|] eqn:Ed; cbn [bind]; [|discriminate].
    unfold qdiv. destruct (Qeq_bool den 0) eqn:D0; cbn [bind]; [discriminate|]. intros [= <-]. exists num, den. split; [reflexivity|]. split; [reflexivity|]. split; [|reflexivity]. intros C. apply Qeq_bool_neq in D0. auto.
  - intros (num & den & -> & -> & D0 & ->). cbn [bind]. unfold qdiv. destruct (Qeq_bool den 0) eqn:E0; [apply Qeq_bool_iff in E0; contradiction|]. reflexivity.
Qed.
Print Assumptions C92_before.

(** and if d settles after u while the bond settles by u, with no coupon paid by its purchase and the last one still to come, it raises. *)
Theorem C92_after : forall a b u us d sd, new_bond a = Ok b -> freq a <> ZERO_COUPON -> cls a = UsTreasury -> unadjusted b = u :: us ->
  calculate_settlement_date d (b_settlement a) (b_cal a) = Ok sd -> u < sd -> settlement_date b <= u ->
  (forall c, In c (coupons b) -> purchase_date a < bp_date c) -> settlement_date b < last (unadjusted b) u -> accrued_on b d = Err ValueError.
Proof.
  intros a b u us d sd B F T U S L Ls P Ll. destruct (both a b u us d sd B F T U S) as (_ & -> & _). replace (sd <=? u) with false by lia. cbv zeta.
  assert (Bi : bisect_right (List.map bp_date (coupons b)) (purchase_date a) = 0). { change 0 with (Z.of_nat 0). apply bisect_right_at; [lia|]. intros i y E. rewrite nth_error_map in E. destruct (nth_error (coupons b) i) as [c|] eqn:Ec; [|discriminate]. injection E as <-. apply nth_error_In in Ec. specialize (P c Ec). lia. }
  rewrite Bi. assert (N0 : nth_unadjusted (coupons b) 0 = Ok u) by (change 0 with (Z.of_nat 0); apply nth_unadjusted_ok; fold (unadjusted b); rewrite U; reflexivity).
  assert (Nl : nth_unadjusted (coupons b) (0 - 1) = Ok (last (unadjusted b) u)).
  { assert (Ne : coupons b <> []) by (intros C; unfold unadjusted in U; rewrite C in U; discriminate). destruct (exists_last Ne) as (l & c & El). unfold nth_unadjusted, py_index, unadjusted. rewrite El, app_length, map_app. cbn [List.map]. rewrite last_last. cbn [List.length].
    change (0 - 1 <? 0) with true. cbv iota. replace ((0 <=? 0 - 1 + Z.of_nat (List.length l + 1)) && (0 - 1 + Z.of_nat (List.length l + 1) <? Z.of_nat (List.length l + 1))) with true by lia. cbn [bind].
    replace (Z.to_nat (0 - 1 + Z.of_nat (List.length l + 1))) with (List.length l) by lia. rewrite nth_error_app2 by lia. rewrite Nat.sub_diag. reflexivity. }
  rewrite Nl, N0. cbn [bind fst snd]. unfold acc. rewrite compute_days_ge by exact Ll. reflexivity.
Qed.
Print Assumptions C92_after.

(** So it is not the interest that a bond bought on d would have accrued. *)
Theorem C92_other_date_refuted : exists mat p d b b' x, mk_date 2025 2 15 = Ok mat /\ mk_date 2023 9 1 = Ok p /\ mk_date 2023 10 2 = Ok d /\ new_bond (note UsTreasury mat p 2) = Ok b /\
  new_bond (note UsTreasury mat d 2) = Ok b' /\ accrued_on b d = Ok x /\ x = accrued_interest b /\ (x < accrued_interest b')%R.
Proof.
  eexists. eexists. eexists. eexists. eexists. eexists. split; [vm_compute; reflexivity|]. split; [vm_compute; reflexivity|]. split; [vm_compute; reflexivity|]. split; [build_bond|]. split; [build_bond|].
  split; [vm_compute; reflexivity|]. split; [reflexivity|].
  cbn [accrued_interest coupon_payment calculate_coupon_payment note freq principal coupon_rate per_year]. unfold Q2R. cbn [QArith_base.Qnum QArith_base.Qden]. lra.
Qed.
Print Assumptions C92_other_date_refuted.

(** The cases occur: a bond settling before its first coupon, asked before and after that; one settling after it. *)
Example C92_case : exists mat p d d' b b', mk_date 2025 2 15 = Ok mat /\ mk_date 2023 3 1 = Ok p /\ mk_date 2023 9 5 = Ok d /\ mk_date 2023 4 3 = Ok d' /\ new_bond (note UsTreasury mat p 2) = Ok b /\
  new_bond (note UsTreasury mat d 2) = Ok b' /\ accrued_on b d = Err ValueError /\ accrued_on b d' = Ok (accrued_interest b) /\
  exists x, accrued_on b' d' = Ok x /\ (x > coupon_payment b')%R /\ (coupon_payment b' > 0)%R /\
  (forall c, In c (coupons b) -> p < bp_date c) /\ settlement_date b < last (unadjusted b) 0.
Proof.
  eexists. eexists. eexists. eexists. eexists. eexists. split; [vm_compute; reflexivity|]. split; [vm_compute; reflexivity|]. split; [vm_compute; reflexivity|]. split; [vm_compute; reflexivity|]. split; [build_bond|]. split; [build_bond|].
  split; [vm_compute; reflexivity|]. split; [vm_compute; reflexivity|]. eexists. split; [vm_compute; reflexivity|].
  cbn [accrued_interest coupon_payment calculate_coupon_payment note freq principal coupon_rate per_year]. split; [unfold Q2R; cbn [QArith_base.Qnum QArith_base.Qden]; lra|]. split; [lra|].
  split; [|vm_compute; reflexivity]. cbn [coupons]. intros c I. cbn in I. repeat destruct I as [<- | I]; try contradiction; vm_compute; reflexivity.
Qed.
