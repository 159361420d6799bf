(** Property theorems C86 (resetting one knot of a curve). *)
From Verif Require Import Base PyDate PyDateFacts DayCount DayCountFacts PyList KeyRate KeyRateFacts Curve CurveFacts.
From Coq Require Import Sorting.Sorted Permutation Lra Lqa.
Open Scope Z_scope.
Ltac lra := first [Lra.lra | Lqa.lra].

Lemma replace_mid {A} (a b : A) l l' : replace_nth (List.length l) b (l ++ a :: l') = l ++ b :: l'.
Proof. induction l; cbn; congruence. Qed.

(** Position i of the list, counted from the front, or from the back when i is negative. *)
Definition position {A} (before after : list A) (i : Z) : Prop :=
  i = Z.of_nat (List.length before) \/ i = - Z.of_nat (S (List.length after)).

Lemma position_index {A} (before after : list A) old i : position before after i -> py_index (before ++ old :: after) i = Ok (List.length before).
Proof.
  unfold position, py_index. rewrite app_length. cbn [List.length]. intros [-> | ->].
  - replace (Z.of_nat (List.length before) <? 0) with false by lia.
    match goal with |- context [if ?b then Ok _ else _] => replace b with true by lia end. f_equal. lia.
  - replace (- Z.of_nat (S (List.length after)) <? 0) with true by lia.
    match goal with |- context [if ?b then Ok _ else _] => replace b with true by lia end. f_equal. lia.
Qed.

(** The knot at position i is replaced where it stands; when that leaves the knots in date order the curve is the one built
    from scratch, and raises as its construction does. *)
Theorem C86_in_order : forall cv before old after i new, c_values cv = before ++ old :: after -> position before after i ->
  StronglySorted Z.le (List.map fst (before ++ new :: after)) ->
  match new_curve (before ++ new :: after) (c_method cv) (c_dcc cv) (Some (c_ref cv)) (c_left cv) (c_right cv) with
  | Ok cv' => reset_interpolation_value new i cv = (cv', Ok tt)
  | Err e => snd (reset_interpolation_value new i cv) = Err e
  end.
Proof.
  intros cv before old after i new V P Sd. unfold reset_interpolation_value. rewrite V, (position_index _ _ _ _ P), replace_mid.
  unfold new_curve. cbn [bind]. rewrite sort_by_id by exact Sd. destruct (create_points _ _ _ _); reflexivity.
Qed.
Print Assumptions C86_in_order.

(** In any case the knots are the old ones with the new one in its place, never rearranged. *)
Theorem C86_place : forall cv before old after i new, c_values cv = before ++ old :: after -> position before after i ->
  c_values (fst (reset_interpolation_value new i cv)) = before ++ new :: after.
Proof.
  intros cv before old after i new V P. unfold reset_interpolation_value. rewrite V, (position_index _ _ _ _ P), replace_mid.
  destruct (create_points _ _ _ _); reflexivity.
Qed.
Print Assumptions C86_place.

(** Outside the list it raises IndexError and changes nothing. *)
Theorem C86_range : forall cv i new, i < - Z.of_nat (List.length (c_values cv)) \/ Z.of_nat (List.length (c_values cv)) <= i ->
  reset_interpolation_value new i cv = (cv, Err IndexError).
Proof.
  intros cv i new H. unfold reset_interpolation_value, py_index. destruct (i <? 0) eqn:E; match goal with |- context [if ?b then Ok _ else _] => replace b with false by lia end; reflexivity.
Qed.
Print Assumptions C86_range.

(** Moving a knot past another leaves a curve that raises at the dates of its own knots. *)
Theorem C86_out_of_order_refuted : forall spline, exists vals cv new cv', new_curve vals LINEAR ACT365 None ERROR ERROR = Ok cv /\
  reset_interpolation_value new 0 cv = (cv', Ok tt) /\ List.length (c_values cv') = 3%nat /\
  forall kv, In kv (c_values cv') -> interpolate spline cv' (fst kv) None = Err ValueError.
Proof.
  intros spline. exists [(738521, 1%R); (738621, 2%R); (738721, 3%R)]. eexists. exists (738821, 4%R). eexists.
  split; [reflexivity|]. split; [reflexivity|]. split; [reflexivity|].
  intros kv I. cbn [c_values In] in I. destruct I as [<- | [<- | [<- | []]]]; unfold interpolate; cbn [c_values last fst snd c_left c_right]; reflexivity.
Qed.
Print Assumptions C86_out_of_order_refuted.

Example C86_case : exists cv cv', new_curve [(738521, 1%R); (738621, 2%R); (738721, 3%R)] LINEAR ACT365 None ERROR ERROR = Ok cv /\
  reset_interpolation_value (738631, 5%R) (-2) cv = (cv', Ok tt) /\ c_values cv' = [(738521, 1%R); (738631, 5%R); (738721, 3%R)].
Proof. do 2 eexists. split; [reflexivity|]. split; reflexivity. Qed.
