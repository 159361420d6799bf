(** Model of the comparisons of key rates, of the operators of key rate collections for every kind of operand, and of
    _add_key_rate (fixedIncome/src/risk/key_rate.py).  Equality is [kr_eqb] and collections are as in KeyRate.v. *)
From Verif Require Import Base PyDate DayCount PyList KeyRate.
Open Scope Z_scope.

(** key_rate.py 67-71 *)
Definition kr_le (j k : kr) : bool := kr_date j <=? kr_date k.
(** key_rate.py 73-76 *)
Definition kr_lt (j k : kr) : bool := kr_date j <? kr_date k.
(** key_rate.py 78-82 *)
Definition kr_gt (j k : kr) : bool := kr_date k <? kr_date j.
(** key_rate.py 84-88 *)
Definition kr_ge (j k : kr) : bool := kr_date k <=? kr_date j.
(** Python: without __ne__, the negation of __eq__ *)
Definition kr_ne (j k : kr) : bool := negb (kr_eqb j k).
(** key_rate.py 101-109: hash((day_count_convention, key_rate_date)); [hash_pair] is Python's hash of such tuples *)
Definition kr_hash (hash_pair : dcc * date -> Z) (k : kr) : Z := hash_pair (kr_dcc k, kr_date k).
(** key_rate.py 111-115: iter(key_rate) *)
Definition kr_iter (a : addr) : list addr := [a].

(** What can stand on the other side of an operator: a collection, a key rate, an iterable of key rates that is neither
    (a list, a set, ...), or an object that is not iterable and has no operators for collections (a number, None, ...) *)
Inductive operand := OColl (c : collection) | ORate (a : addr) | OIter (l : list addr) | OOther.
(** key_rate.py 386-397: __add__ of a collection; None is NotImplemented *)
Definition coll_add (order : list addr -> list addr) (c : collection) (o : operand) : prog (option collection) :=
  match o with OColl d => let* r := add_collections order c d in ret (Some r) | _ => ret None end.
(** Python: type(l).__add__(l, r); key rates have none, and that of the other operands does not know collections *)
Definition dunder_add (order : list addr -> list addr) (l r : operand) : prog (option collection) :=
  match l with OColl c => coll_add order c r | _ => ret None end.
(** Python: whether the two operands have the same class *)
Definition same_class (l r : operand) : bool :=
  match l, r with OColl _, OColl _ | ORate _, ORate _ => true | _, _ => false end.
(** Python: [l + r] tries __add__ of the left operand, then, unless the classes are the same, __radd__ of the right one, and raises
    TypeError when both give up.  __radd__ of a collection (key_rate.py 418-420) evaluates [self + other]; key rates have none.
    [n] bounds the nesting of + in __radd__ (CPython: the recursion limit). *)
Fixpoint py_plus (n : nat) (order : list addr -> list addr) (l r : operand) : prog collection :=
  let* x := dunder_add order l r in
  match x with
  | Some c => ret c
  | None => match r with
            | OColl _ => if same_class l r then raise TypeError
                         else match n with O => raise OutOfFuel | S n => py_plus n order r l end
            | _ => raise TypeError
            end
  end.
(** key_rate.py 399-414 [collection += o]: iterates over the operand first, which for an object that is not iterable raises
    the TypeError that is replaced by another *)
Definition iadd_op (order : list addr -> list addr) (c : collection) (o : operand) : heap -> heap * (collection * res unit) :=
  match o with
  | OColl d => iadd order c d
  | ORate a => iadd order c (kr_iter a)
  | OIter l => iadd order c l
  | OOther => fun h => (h, (c, Err TypeError))
  end.
(** sum(collections): 0 + the first, and so on *)
Definition sum_collections (n : nat) (order : list addr -> list addr) (l : list collection) : prog operand :=
  fold_left (fun p d => let* s := p in let* t := py_plus n order s (OColl d) in ret (OColl t)) l (ret OOther).

(** CPython bisect.bisect_right(l, x) from [lo] to [hi]; [n] bounds the number of halvings *)
Fixpoint bisect_right (n : nat) (h : heap) (l : list addr) (x : addr) (lo hi : nat) : nat :=
  match n with
  | O => lo
  | S n => if (lo <? hi)%nat then
             let mid := Nat.div2 (lo + hi) in
             match nth_error l mid with
             | Some a => if kr_lt (h x) (h a) then bisect_right n h l x lo mid else bisect_right n h l x (S mid) hi
             | None => lo
             end
           else lo
  end.
(** Python: list.insert(i, x) for 0 <= i *)
Definition insert_at {A} (i : nat) (x : A) (l : list A) : list A := firstn i l ++ x :: skipn i l.
(** key_rate.py 441-454: the members of self afterwards, and the result *)
Definition add_one (c : collection) (x : addr) : heap -> heap * (collection * res collection) :=
  fun h => let i := bisect_right (S (List.length c)) h c x 0 (List.length c) in
    match nth_error c i with
    | None => (h, (c, Err IndexError))
    | Some a => let c' := if kr_ne (h a) (h x) then insert_at i x c else c in
                let '(h', r) := new_collection c' h in (h', (c', r))
    end.
