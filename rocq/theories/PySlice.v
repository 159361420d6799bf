(** Python slices start:stop:step of lists, and the methods of base_cashflow.py and key_rate.py that take them.
    CPython's PySlice_AdjustIndices (Objects/sliceobject.c) and list_subscript / list_ass_subscript (Objects/listobject.c);
    the clipping of bounds to the machine's index type is left out. *)
From Verif Require Import Base PyDate DayCount PyList KeyRate Curve Cashflow.
Open Scope Z_scope.

(** A slice: omitted bounds are None *)
Record pyslice := Slice { sl_start : option Z; sl_stop : option Z; sl_step : option Z }.

(** sliceobject.c PySlice_Unpack, PySlice_AdjustIndices: the first position, for a sequence of length [n] *)
Definition adjust_start (n step : Z) (o : option Z) : Z :=
  match o with
  | None => if step <? 0 then n - 1 else 0
  | Some s => if s <? 0 then (let s := s + n in if s <? 0 then (if step <? 0 then -1 else 0) else s)
              else if n <=? s then (if step <? 0 then n - 1 else n) else s
  end.
(** sliceobject.c PySlice_Unpack, PySlice_AdjustIndices: the position to stop before *)
Definition adjust_stop (n step : Z) (o : option Z) : Z :=
  match o with
  | None => if step <? 0 then -1 else n
  | Some s => if s <? 0 then (let s := s + n in if s <? 0 then (if step <? 0 then -1 else 0) else s)
              else if n <=? s then (if step <? 0 then n - 1 else n) else s
  end.
(** sliceobject.c PySlice_AdjustIndices: the number of positions *)
Definition slice_length (start stop step : Z) : Z :=
  if step <? 0 then (if stop <? start then (start - stop - 1) / (- step) + 1 else 0)
  else (if start <? stop then (stop - start - 1) / step + 1 else 0).
(** listobject.c list_subscript: the positions in order; a step of zero is a ValueError *)
Definition slice_positions (n : Z) (s : pyslice) : res (list Z) :=
  let step := match sl_step s with None => 1 | Some k => k end in
  if step =? 0 then Err ValueError
  else let a := adjust_start n step (sl_start s) in let b := adjust_stop n step (sl_stop s) in
       Ok (List.map (fun i => a + Z.of_nat i * step) (seq 0 (Z.to_nat (slice_length a b step)))).
(** listobject.c list_item *)
Definition list_item {A} (l : list A) (i : Z) : res A :=
  if (0 <=? i) && (i <? Z.of_nat (List.length l)) then match nth_error l (Z.to_nat i) with Some x => Ok x | None => Err IndexError end else Err IndexError.
(** listobject.c list_subscript *)
Definition py_slice {A} (l : list A) (s : pyslice) : res (list A) :=
  do ps <- slice_positions (Z.of_nat (List.length l)) s; mapM (list_item l) ps.
(** listobject.c list_ass_subscript with no value: the items at the other positions stay, in order *)
Definition py_del_slice {A} (l : list A) (s : pyslice) : res (list A) :=
  do ps <- slice_positions (Z.of_nat (List.length l)) s;
  Ok (List.map snd (filter (fun p => negb (existsb (Z.eqb (Z.of_nat (fst p))) ps)) (combine (seq 0 (List.length l)) l))).

(** base_cashflow.py 39-43: a slice of a cashflow is a new cashflow *)
Definition cf_getitem_slice (c : cashflow) (s : pyslice) : res cashflow := do l <- py_slice c s; Ok (new_cashflow l).
(** key_rate.py 287-291: a slice of a collection is a new collection of the same key rates *)
Definition kr_getitem_slice (c : collection) (s : pyslice) : prog collection :=
  match py_slice c s with Err e => raise e | Ok l => new_collection l end.
(** key_rate.py 340-346: del with a slice; the first component is the member list afterwards *)
Definition kr_del_slice (c : collection) (s : pyslice) : heap -> heap * (collection * res unit) :=
  fun h => match py_del_slice c s with
  | Err e => (h, (c, Err e))
  | Ok c' => let '(h', r) := create_combined_adjustment_function c' h in (h', (c', r))
  end.
