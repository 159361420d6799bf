(** Common vocabulary of the model: Python exceptions as values, loops on binary fuel. *)
From Coq Require Export ZArith QArith List Bool Lia Lqa String.
From Coq Require Export ZifyBool ZifyNat.
Export ListNotations.
Open Scope Z_scope.

(** Exceptions the modelled code can raise.  [OutOfFuel] is not a Python exception: it marks exhaustion of the
    fuel of a modelled [while] loop and is proved unreachable. *)
Inductive exn :=
| ValueError | TypeError | OverflowError | KeyError | IndexError
| ZeroDivisionError | AttributeError | NameError | AssertionError | LinAlgError | OutOfFuel.

(** Result of a Python call: a value or a raised exception. *)
Inductive res (A : Type) := Ok (a : A) | Err (e : exn).
Arguments Ok {A} a.
Arguments Err {A} e.

(** Sequencing: an exception propagates. *)
Definition bind {A B} (x : res A) (f : A -> res B) : res B :=
  match x with Ok a => f a | Err e => Err e end.
(** Sequencing of [bind]: Python's statement order (not a line of /repo) *)
Notation "'do' x <- a ; b" := (bind a (fun x => b)) (at level 200, x name, a at level 100, b at level 200).

(** Evaluate a list of calls left to right, stopping at the first exception (list comprehension). *)
Fixpoint mapM {A B} (f : A -> res B) (l : list A) : res (list B) :=
  match l with
  | [] => Ok []
  | a :: l => do b <- f a; do bs <- mapM f l; Ok (b :: bs)
  end.

(** One step of a loop: go on with a new state or leave with a result. *)
Inductive ctl (A B : Type) := Go (a : A) | Stop (b : B).
Arguments Go {A B} a.
Arguments Stop {A B} b.

(** At most [p] iterations of the step function, early exit on [Stop]. *)
Fixpoint iter {A B} (p : positive) (f : A -> ctl A B) (a : A) : ctl A B :=
  match p with
  | xH => f a
  | xO q => match iter q f a with Go a' => iter q f a' | r => r end
  | xI q => match f a with
            | Go a1 => match iter q f a1 with Go a2 => iter q f a2 | r => r end
            | r => r
            end
  end.

(** A [while] loop on fuel [p]. *)
Definition loop {A B} (p : positive) (f : A -> ctl A (res B)) (a : A) : res B :=
  match iter p f a with Stop r => r | Go _ => Err OutOfFuel end.

(** Fuel for loops over dates: 2^22 exceeds the 3652059 dates of the calendar. *)
Definition date_fuel : positive := 4194304%positive.
