(** Model of the constructor of BrownianMotion (brownian_motion.py 70-86) with numpy.linalg.cholesky computed rather than
    assumed, and of its methods on an object whose matrix need not have the declared dimension.  Arithmetic is exact. *)
From Verif Require Import Base PyDate DayCount RVec Stochastic Multi.
From Coq Require Import Reals.
Open Scope Z_scope.

(** numpy.linalg.cholesky (LAPACK potrf), called at brownian_motion.py 81: entries 0 .. j-1 of row i, the rows above being L *)
Fixpoint cholesky_row (M L : mat) (i j : nat) : vec :=
  match j with
  | O => fun _ => 0%R
  | S j' => let r := cholesky_row M L i j' in fun k => if Nat.eqb k j' then ((M i j' - sumn j' (fun k => r k * L j' k)) / L j' j')%R else r k
  end.
(** numpy.linalg.cholesky, called at brownian_motion.py 81: row by row; fails at the first pivot which is not positive.
    Only entries on and below the diagonal are read. *)
Fixpoint cholesky (M : mat) (n : nat) : option mat :=
  match n with
  | O => Some (fun _ _ => 0%R)
  | S i =>
    match cholesky M i with
    | None => None
    | Some L =>
      let r := cholesky_row M L i i in
      let pivot := (M i i - sumn i (fun k => r k * r k))%R in
      if Rlt_dec 0 pivot then Some (fun a b => if Nat.eqb a i then (if Nat.eqb b i then sqrt pivot else r b) else L a b) else None
    end
  end.

(** a numpy array of two dimensions: its shape and entries (brownian_motion.py 74) *)
Record ndarray2 := Ndarray2 { nd_rows : nat; nd_cols : nat; nd_at : mat }.
(** np.eye(n), brownian_motion.py 79: negative dimensions raise ValueError *)
Definition np_eye (n : Z) : res ndarray2 := if n <? 0 then Err ValueError else Ok (Ndarray2 (Z.to_nat n) (Z.to_nat n) delta).
(** np.linalg.cholesky, brownian_motion.py 81: a matrix which is not square, or not positive definite, raises LinAlgError *)
Definition np_cholesky (a : ndarray2) : res mat :=
  if Nat.eqb (nd_rows a) (nd_cols a) then or_lin (cholesky (nd_at a) (nd_rows a)) else Err LinAlgError.

(** brownian_motion.py 70-86: the attributes, the declared dimension (an int) and the size of lower_triangular_mat apart *)
Record motion := Motion { mo_bm : brownian; mo_dim : Z; mo_size : nat; mo_corr : ndarray2 }.
(** brownian_motion.py 70-86: line 80 is an assert of [dimension] alone, the comparison being its message *)
Definition new_motion (s e : datetime) (dim : Z) (corr : option ndarray2) (c : dcc) : res motion :=
  do a <- match corr with Some a => Ok a | None => np_eye dim end;
  if dim =? 0 then Err AssertionError
  else do L <- np_cholesky a; Ok (Motion (new_brownian s e (Z.to_nat dim) L c) dim (nd_rows a) a).
(** brownian_motion.py 124-165: assignment of attributes *)
Definition with_bm (m : motion) (b : brownian) : motion := Motion b (mo_dim m) (mo_size m) (mo_corr m).
(** brownian_motion.py 124-150: 148 raises ValueError for a negative dimension, the product of 149 when the inner
    dimensions differ; the datetimes and time increments (135, 142) are assigned by then *)
Definition motion_increments (m : motion) (dt : dt_step) (draw : nat -> vec) : motion * res (list vec * list Q) :=
  match generate_increments (mo_bm m) dt draw with
  | (b, Err x) => (with_bm m b, Err x)
  | (b, Ok r) => (with_bm m b, if (mo_dim m <? 0) || negb (Nat.eqb (mo_size m) (Z.to_nat (mo_dim m))) then Err ValueError else Ok r)
  end.
(** brownian_motion.py 152-165 *)
Definition motion_path (m : motion) (dt : dt_step) (set : bool) (draw : nat -> vec) : motion * res (list vec) :=
  match motion_increments m dt draw with
  | (m, Err x) => (m, Err x)
  | (m, Ok (incs, _)) => let p := cumsum (fun _ => 0%R) incs in ((if set then with_bm m (set_bm_path (mo_bm m) p) else m), Ok p)
  end.
(** brownian_motion.py 112-122 *)
Definition motion_call (m : motion) (x : datetime) : res vec := bm_call (mo_bm m) x.
