(** Model of the sequence behaviour of fixedIncome/src/risk/key_rate.py: KeyRateCollection, and of the iteration of
    portfolio/base_portfolio.py: Portfolio.  KeyRateCollection inherits from collections.abc.MutableSequence, so the methods
    it does not define are CPython's mixin methods (Lib/_collections_abc.py), which call the ones it does.
    A collection as an object is the list of its key rates and the cursor of next(); key rates live in the heap. *)
From Verif Require Import Base PyDate DayCount KeyRate Curve Cashflow.
Open Scope Z_scope.

(** key_rate.py 268-274: attributes key_rates and iter_index *)
Record seq_obj := Seq { sq_rates : collection; sq_cursor : nat }.
(** A method call: the key rates afterwards, the object afterwards, the result or exception *)
Definition call (A : Type) := seq_obj -> heap -> heap * seq_obj * res A.

(** key_rate.py 268-274 *)
Definition sq_new (l : list addr) : prog seq_obj := let* c := new_collection l in ret (Seq c 0).
(** key_rate.py 361-373: None for StopIteration *)
Definition sq_next (s : seq_obj) : seq_obj * option addr :=
  match nth_error (sq_rates s) (sq_cursor s) with
  | Some a => (Seq (sq_rates s) (S (sq_cursor s)), Some a)
  | None => (Seq (sq_rates s) 0, None)
  end.
(** key_rate.py 375-377: what a for loop sees (the list is not changed while it runs) *)
Definition sq_iter (s : seq_obj) : list addr := sq_rates s.
(** key_rate.py 353-355 *)
Definition sq_len (s : seq_obj) : nat := List.length (sq_rates s).
(** key_rate.py 357-359 *)
Definition sq_bool (s : seq_obj) : bool := match sq_rates s with [] => false | _ => true end.
(** key_rate.py 285-294, an integer index *)
Definition sq_getitem (s : seq_obj) (i : Z) : res addr :=
  do n <- py_index (sq_rates s) i;
  match nth_error (sq_rates s) n with Some a => Ok a | None => Err IndexError end.
(** key_rate.py 340-346 *)
Definition sq_delitem (i : Z) : call unit := fun s h =>
  let '(h, (c, r)) := delitem (sq_rates s) i h in (h, Seq c (sq_cursor s), r).
(** key_rate.py 296-317: whether the new key rate is stored; when it is not, an exception is raised *)
Definition stored (h : heap) (c : collection) (i : Z) (new : addr) : option nat :=
  match py_index c i with
  | Ok n => match nth_error c n with
            | Some a => match kr_prior (h a), kr_next (h a) with
                        | Some p, Some f => if (p <? kr_date (h new)) && (kr_date (h new) <? f) then Some n else None
                        | _, _ => None
                        end
            | None => None
            end
  | Err _ => None
  end.
(** key_rate.py 296-338: [setitem], keeping the list that was changed even when linking it raises *)
Definition sq_setitem (i : Z) (new : addr) : call unit := fun s h =>
  let c := match stored h (sq_rates s) i new with Some n => replace_nth n new (sq_rates s) | None => sq_rates s end in
  match setitem (sq_rates s) i new h with
  | (h, Ok _) => (h, Seq c (sq_cursor s), Ok tt)
  | (h, Err e) => (h, Seq c (sq_cursor s), Err e)
  end.
(** key_rate.py 379-384, 55-65: list equality *)
Fixpoint list_eqb (h : heap) (a b : list addr) : bool :=
  match a, b with
  | [], [] => true
  | x :: a, y :: b => (Nat.eqb x y || kr_eqb (h x) (h y)) && list_eqb h a b
  | _, _ => false
  end.
(** key_rate.py 379-384 *)
Definition sq_eqb (h : heap) (s t : seq_obj) : bool := list_eqb h (sq_rates s) (sq_rates t).

(** _collections_abc.py Sequence: "v is value or v == value" *)
Definition same (h : heap) (v x : addr) : bool := Nat.eqb v x || kr_eqb (h v) (h x).
(** Sequence.__contains__ *)
Definition sq_contains (h : heap) (s : seq_obj) (x : addr) : bool := existsb (fun v => same h v x) (sq_iter s).
(** Sequence.index with the default bounds; ValueError when absent *)
Fixpoint index_from (h : heap) (l : list addr) (x : addr) (i : Z) : res Z :=
  match l with
  | [] => Err ValueError
  | v :: l => if same h v x then Ok i else index_from h l x (i + 1)
  end.
(** Sequence.index *)
Definition sq_index (h : heap) (s : seq_obj) (x : addr) : res Z := index_from h (sq_rates s) x 0.
(** Sequence.count *)
Definition sq_count (h : heap) (s : seq_obj) (x : addr) : nat := List.length (filter (fun v => same h v x) (sq_iter s)).
(** Sequence.__reversed__ *)
Definition sq_reversed (s : seq_obj) : list addr := rev (sq_rates s).
(** MutableSequence.append: self.insert(len(self), value), but key_rate.py 348-351 takes one argument *)
Definition sq_append (x : addr) : call unit := fun s h => (h, s, Err TypeError).
(** MutableSequence.extend of a list *)
Fixpoint sq_extend (l : list addr) : call unit := fun s h =>
  match l with
  | [] => (h, s, Ok tt)
  | x :: l => match sq_append x s h with (h, s, Ok _) => sq_extend l s h | r => r end
  end.
(** MutableSequence.pop *)
Definition sq_pop (i : Z) : call addr := fun s h =>
  match sq_getitem s i with
  | Err e => (h, s, Err e)
  | Ok a => let '(h, s, r) := sq_delitem i s h in (h, s, do _ <- r; Ok a)
  end.
(** MutableSequence.remove *)
Definition sq_remove (x : addr) : call unit := fun s h =>
  match sq_index h s x with Err e => (h, s, Err e) | Ok i => sq_delitem i s h end.
(** MutableSequence.clear: pop() until IndexError.  Each pop shortens the list, so length + 1 rounds suffice. *)
Fixpoint clear_loop (n : nat) : call unit := fun s h =>
  match n with
  | O => (h, s, Ok tt)
  | S n => match sq_pop (-1) s h with
           | (h, s, Ok _) => clear_loop n s h
           | (h, s, Err IndexError) => (h, s, Ok tt)
           | (h, s, Err e) => (h, s, Err e)
           end
  end.
(** MutableSequence.clear *)
Definition sq_clear : call unit := fun s h => clear_loop (S (sq_len s)) s h.
(** MutableSequence.reverse: n // 2 swaps, both right-hand sides read first *)
Fixpoint reverse_loop (k : nat) (i : Z) (n : Z) : call unit := fun s h =>
  match k with
  | O => (h, s, Ok tt)
  | S k =>
    match sq_getitem s (n - i - 1), sq_getitem s i with
    | Ok a, Ok b =>
      match sq_setitem i a s h with
      | (h, s, Ok _) => match sq_setitem (n - i - 1) b s h with (h, s, Ok _) => reverse_loop k (i + 1) n s h | r => r end
      | r => r
      end
    | Err e, _ | _, Err e => (h, s, Err e)
    end
  end.
(** MutableSequence.reverse *)
Definition sq_reverse : call unit := fun s h => reverse_loop (sq_len s / 2) 0 (Z.of_nat (sq_len s)) s h.

(** base_portfolio.py 17-20: the portfolio and _iter_index *)
Record pf_obj := PfObj { po_portfolio : portfolio; po_cursor : nat }.
(** base_portfolio.py 17-20 *)
Definition new_pf_obj (l : list entry) (cash : R) : pf_obj := PfObj (Portfolio l cash) 0.
(** base_portfolio.py 26-28 *)
Definition pf_iter (p : pf_obj) : list entry := assets (po_portfolio p).
(** base_portfolio.py 29-37: None for StopIteration *)
Definition pf_next (p : pf_obj) : pf_obj * option entry :=
  match nth_error (assets (po_portfolio p)) (po_cursor p) with
  | Some e => (PfObj (po_portfolio p) (S (po_cursor p)), Some e)
  | None => (PfObj (po_portfolio p) 0, None)
  end.
(** base_portfolio.py 22-24: [p.assets] is the list itself, which a caller may change *)
Definition pf_set_assets (l : list entry) (p : pf_obj) : pf_obj := PfObj (Portfolio l (cash_amount (po_portfolio p))) (po_cursor p).
