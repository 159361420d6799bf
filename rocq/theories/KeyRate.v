(** Model of fixedIncome/src/risk/key_rate.py.  KeyRate objects are mutable and shared between collections, so they live
    in a heap; a collection is a list of heap addresses.  Query dates and key rate dates are plain dates. *)
From Verif Require Import Base PyDate DayCount.
Open Scope Z_scope.

(** Python float division. *)
Definition qdiv (a b : Q) : res Q := if Qeq_bool b 0 then Err ZeroDivisionError else Ok (a / b)%Q.

(** key_rate.py 10-30: attributes.  [kr_fun] are the three dates captured by the closure made by
    create_adjustment_function (176-256); the closure reads bump_val and day_count_convention from the object (self)
    when called. *)
Record kr := KR {
  kr_dcc : dcc; kr_date : date; kr_prior : option date; kr_next : option date; kr_bump : Q;
  kr_fun : option date * date * option date
}.

(** accrual between two plain dates *)
Definition acc (c : dcc) (s e : date) : res Q := compute_accrual_length (Day s) (Day e) c.

(** key_rate.py 178-246: the closures.  First case: [following] may be None, then [input_date >= None] raises
    TypeError.  The case (None, middle, None) of 248-250 is shadowed by the first.  __call__ (90-99) re-raises TypeError. *)
Definition adjustment (c : dcc) (bump : Q) (captured : option date * date * option date) (d : date) : res Q :=
  let '(prior, middle, next) := captured in
  match prior, next with
  | None, following =>
      if d <=? middle then Ok bump
      else match following with
           | None => Err TypeError
           | Some f =>
               if f <=? d then Ok 0%Q
               else do t <- acc c d f; do total <- acc c middle f; do r <- qdiv t total; Ok (bump * r)%Q
           end
  | Some p, None =>
      if middle <=? d then Ok bump
      else if d <=? p then Ok 0%Q
      else do t <- acc c p d; do total <- acc c p middle; do r <- qdiv t total; Ok (r * bump)%Q
  | Some p, Some f =>
      if (f <=? d) || (d <=? p) then Ok 0%Q
      else if d <=? middle then do t <- acc c p d; do total <- acc c p middle; do r <- qdiv t total; Ok (r * bump)%Q
      else do t <- acc c d f; do total <- acc c middle f; do r <- qdiv t total; Ok (r * bump)%Q
  end.

(** key_rate.py 90-99 *)
Definition kr_call (k : kr) (d : date) : res Q := adjustment (kr_dcc k) (kr_bump k) (kr_fun k) d.

(** key_rate.py 169-256 (recording the captured dates) *)
Definition create_adjustment_function (k : kr) : kr :=
  KR (kr_dcc k) (kr_date k) (kr_prior k) (kr_next k) (kr_bump k) (kr_prior k, kr_date k, kr_next k).

(** risk_metrics.py 14: ONE_BASIS_POINT *)
Definition ONE_BASIS_POINT : Q := 1 # 10000.

(** key_rate.py 20-30: no check of the order of the dates. *)
Definition new_key_rate (c : dcc) (d : date) (prior next : option date) : kr :=
  create_adjustment_function (KR c d prior next ONE_BASIS_POINT (prior, d, next)).

(** key_rate.py 121-127 *)
Definition set_bump_val (b : Q) (k : kr) : kr :=
  create_adjustment_function (KR (kr_dcc k) (kr_date k) (kr_prior k) (kr_next k) b (kr_fun k)).

(** key_rate.py 129-147 *)
Definition set_prior_date (p : option date) (k : kr) : res kr :=
  match p with
  | Some d => if kr_date k <=? d then Err ValueError
              else Ok (create_adjustment_function (KR (kr_dcc k) (kr_date k) p (kr_next k) (kr_bump k) (kr_fun k)))
  | None => Ok (create_adjustment_function (KR (kr_dcc k) (kr_date k) p (kr_next k) (kr_bump k) (kr_fun k)))
  end.

(** key_rate.py 149-167 *)
Definition set_next_date (n : option date) (k : kr) : res kr :=
  match n with
  | Some d => if d <=? kr_date k then Err ValueError
              else Ok (create_adjustment_function (KR (kr_dcc k) (kr_date k) (kr_prior k) n (kr_bump k) (kr_fun k)))
  | None => Ok (create_adjustment_function (KR (kr_dcc k) (kr_date k) (kr_prior k) n (kr_bump k) (kr_fun k)))
  end.

(** The heap of KeyRate objects. *)
Definition addr := nat.
(** the KeyRate objects of the program (key_rate.py 20-53) *)
Definition heap := addr -> kr.
(** assignment to the attributes of one object *)
Definition upd (h : heap) (a : addr) (k : kr) : heap := fun b => if Nat.eqb b a then k else h b.

(** Programs on the heap: effects made before an exception remain. *)
Definition prog (A : Type) := heap -> heap * res A.
(** Python: return *)
Definition ret {A} (a : A) : prog A := fun h => (h, Ok a).
(** Python: raise *)
Definition raise {A} (e : exn) : prog A := fun h => (h, Err e).
(** Python: the next statement, unless the previous one raised *)
Definition andthen {A B} (p : prog A) (f : A -> prog B) : prog B :=
  fun h => match p h with (h', Ok a) => f a h' | (h', Err e) => (h', Err e) end.
(** sequencing of [andthen] *)
Notation "'let*' x := p 'in' q" := (andthen p (fun x => q)) (at level 200, x name, p at level 100, q at level 200).

(** method call on an object that may raise (without effect) *)
Definition update (a : addr) (f : kr -> res kr) : prog unit :=
  fun h => match f (h a) with Ok k => (upd h a k, Ok tt) | Err e => (h, Err e) end.
(** key_rate.py 31-33: reading key_rate_date *)
Definition date_at (a : addr) : prog date := fun h => (h, Ok (kr_date (h a))).

(** key_rate.py 473-485: the loop body for [a], [prev] being the member before (None for the first) and [rest] those
    after; in the last position next is set before prior. *)
Definition link_one (prev : option addr) (a : addr) (rest : list addr) : prog unit :=
  let* _ :=
    match prev, rest with
    | None, [] => ret tt                                            (* not reached: two or more *)
    | None, b :: _ =>
        let* _ := update a (set_prior_date None) in
        let* d := date_at b in update a (set_next_date (Some d))
    | Some p, [] =>
        let* _ := update a (set_next_date None) in
        let* d := date_at p in update a (set_prior_date (Some d))
    | Some p, b :: _ =>
        let* d := date_at p in let* _ := update a (set_prior_date (Some d)) in
        let* d' := date_at b in update a (set_next_date (Some d'))
    end in
  update a (fun k => Ok (create_adjustment_function k)).

(** key_rate.py 470-485: the loop over a collection of two or more *)
Fixpoint link_loop (prev : option addr) (l : list addr) : prog unit :=
  match l with
  | [] => ret tt
  | a :: rest => let* _ := link_one prev a rest in link_loop (Some a) rest
  end.

(** key_rate.py 459-494 *)
Definition set_dates_in_collection (l : list addr) : prog unit :=
  match l with
  | [] => raise ValueError
  | [a] => let* _ := update a (set_prior_date None) in
           let* _ := update a (set_next_date None) in
           update a (fun k => Ok (create_adjustment_function k))
  | _ => link_loop None l
  end.

(** sorted(list(key_rates)): stable, by key_rate_date (__lt__, 73-76). *)
Fixpoint insert_kr (h : heap) (a : addr) (l : list addr) : list addr :=
  match l with
  | [] => [a]
  | b :: l' => if kr_date (h b) <=? kr_date (h a) then b :: insert_kr h a l' else a :: l
  end.
(** key_rate.py 268-275: sorted(list(key_rates)) *)
Definition sort_kr (h : heap) (l : list addr) : list addr := fold_left (fun acc a => insert_kr h a acc) l [].

(** A collection object: its list of key rates. *)
Definition collection := list addr.

(** key_rate.py 496-504 *)
Definition create_combined_adjustment_function (c : collection) : prog unit := set_dates_in_collection c.

(** key_rate.py 268-273: KeyRateCollection(key_rates) *)
Definition new_collection (l : list addr) : prog collection :=
  fun h => (let c := sort_kr h l in
            let* _ := set_dates_in_collection c in
            let* _ := create_combined_adjustment_function c in ret c) h.

(** key_rate.py 501-502 and 279-285: the sum over the current members of their current adjustments. *)
Definition coll_call (h : heap) (c : collection) (d : date) : res Q :=
  do l <- mapM (fun a => kr_call (h a) d) c; Ok (fold_left Qplus l 0%Q).

(** Python list indexing with a possibly negative index *)
Definition py_index {A} (l : list A) (i : Z) : res nat :=
  let n := Z.of_nat (List.length l) in
  let j := if i <? 0 then i + n else i in
  if (0 <=? j) && (j <? n) then Ok (Z.to_nat j) else Err IndexError.

(** key_rate.py 287-291 with a slice [i:j] of non-negative bounds *)
Definition slice {A} (i j : nat) (l : list A) : list A := firstn (j - i) (skipn i l).
(** key_rate.py 287-291 *)
Definition getslice (c : collection) (i j : nat) : prog collection := new_collection (slice i j c).

(** key_rate.py 296-338: l[i] = x on a list *)
Fixpoint replace_nth {A} (n : nat) (x : A) (l : list A) : list A :=
  match l, n with
  | [], _ => []
  | _ :: l, O => x :: l
  | y :: l, S n => y :: replace_nth n x l
  end.
(** key_rate.py 340-346: del l[i] on a list *)
Fixpoint remove_nth {A} (n : nat) (l : list A) : list A :=
  match l, n with
  | [], _ => []
  | _ :: l, O => l
  | y :: l, S n => y :: remove_nth n l
  end.

(** key_rate.py 296-338.  The first case matches any pair; comparing None with a date raises TypeError:
    [prior < d < next] evaluates [prior < d] first and stops if False.  Returns the new member list. *)
Definition setitem (c : collection) (i : Z) (new : addr) : prog collection :=
  match py_index c i with
  | Err e => raise e
  | Ok n => fun h =>
      match nth_error c n with
      | None => (h, Err IndexError)
      | Some a =>
          match kr_prior (h a), kr_next (h a) with
          | None, _ => (h, Err TypeError)
          | Some p, nx =>
              if p <? kr_date (h new) then
                match nx with
                | None => (h, Err TypeError)
                | Some f =>
                    if kr_date (h new) <? f then
                      (let c' := replace_nth n new c in let* _ := set_dates_in_collection c' in ret c') h
                    else (h, Err ValueError)
                end
              else (h, Err ValueError)
          end
      end
  end.

(** key_rate.py 340-346: the member is removed before re-linking (which raises ValueError if none is left); the first
    component is the member list afterwards. *)
Definition delitem (c : collection) (i : Z) : heap -> heap * (collection * res unit) :=
  fun h => match py_index c i with
  | Err e => (h, (c, Err e))
  | Ok n => let c' := remove_nth n c in
            let '(h', r) := create_combined_adjustment_function c' h in (h', (c', r))
  end.

(** key_rate.py 55-65, 101-109: equality (and hash) of key rates. *)
Definition dcc_eqb (a b : dcc) : bool :=
  match a, b with
  | ACT360, ACT360 | ACT365, ACT365 | ACT365_25, ACT365_25 | ACTACT, ACTACT | THIRTY360, THIRTY360 => true
  | _, _ => false
  end.
(** key_rate.py 55-65 *)
Definition kr_eqb (j k : kr) : bool := dcc_eqb (kr_dcc j) (kr_dcc k) && (kr_date j =? kr_date k).

(** set(a) | set(b) as a list: of equal elements the first is kept.  The iteration order of a set is unspecified; it is
    left to the caller ([order] below). *)
Fixpoint dedup (h : heap) (seen : list addr) (l : list addr) : list addr :=
  match l with
  | [] => []
  | a :: l => if existsb (fun b => kr_eqb (h b) (h a)) seen then dedup h seen l else a :: dedup h (a :: seen) l
  end.
(** key_rate.py 423-439: list(set(a) | set(b)), in some order chosen by the caller *)
Definition set_union (h : heap) (a b : list addr) : list addr := dedup h [] (a ++ b).

(** key_rate.py 386-397: [self + other] for two collections; [order] enumerates the set in some order. *)
Definition add_collections (order : list addr -> list addr) (a b : collection) : prog collection :=
  fun h => new_collection (order (set_union h a b)) h.

(** key_rate.py 392-397 and Python's binary operators: [self + key_rate] where the right operand is no collection:
    __add__ returns NotImplemented and KeyRate has no __radd__, so TypeError.  insert (348-351) does that. *)
Definition add_key_rate (c : collection) (a : addr) : prog collection := raise TypeError.
(** key_rate.py 348-351 *)
Definition insert (c : collection) (a : addr) : prog unit := let* _ := add_key_rate c a in ret tt.

(** key_rate.py 399-414: in place, without sorting; the members are replaced before linking may raise ValueError (only
    TypeError is caught). *)
Definition iadd (order : list addr -> list addr) (c : collection) (other : list addr) : heap -> heap * (collection * res unit) :=
  fun h => let c' := order (set_union h c other) in
           let '(h', r) := create_combined_adjustment_function c' h in (h', (c', r)).

(** key_rate.py 506-510 *)
Fixpoint set_bumps (b : Q) (l : list addr) : prog unit :=
  match l with
  | [] => ret tt
  | a :: l => let* _ := update a (fun k => Ok (set_bump_val b k)) in set_bumps b l
  end.
(** key_rate.py 506-510 *)
Definition coll_set_bump_val (b : Q) (c : collection) : prog unit :=
  let* _ := set_bumps b c in create_combined_adjustment_function c.
