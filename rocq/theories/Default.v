(** Model of fixedIncome/src/curves/credit_curves/default_models.py: default_bernoulli_paths (the decorator time_this only
    prints the elapsed time).  np.random.uniform is a stream of draws, read in order; hazard_rate_fxcn is any function of the
    time that returns a float or raises.  A while loop is unrolled [fuel] times: None is "not finished yet".  NaN is None.
    Floats are reals, so the grid times are exact multiples of dt. *)
From Verif Require Import Base.
From Coq Require Import Reals.
Open Scope Z_scope.

(** default_models.py 26-36: the default time of one path and the number of draws read so far *)
Fixpoint default_path (fuel : nat) (hazard : R -> res R) (maturity dt : R) (draws : nat -> R) (time : R) (k : nat) : option (res (option R) * nat) :=
  match fuel with
  | O => None
  | S fuel =>
    if Rlt_dec time maturity then
      match hazard time with
      | Err e => Some (Err e, k)
      | Ok h => if Rle_dec (draws k) (h * dt) then Some (Ok (Some time), S k)
                else default_path fuel hazard maturity dt draws (time + dt) (S k)
      end
    else Some (Ok None, k)
  end.
(** default_models.py 25-38: for i in range(num_paths) *)
Fixpoint default_loop (fuel : nat) (hazard : R -> res R) (maturity dt : R) (draws : nat -> R) (n : nat) (k : nat) : option (res (list (option R)) * nat) :=
  match n with
  | O => Some (Ok [], k)
  | S n => match default_path fuel hazard maturity dt draws dt k with
           | None => None
           | Some (Err e, k) => Some (Err e, k)
           | Some (Ok x, k) => match default_loop fuel hazard maturity dt draws n k with
                               | Some (Ok l, k) => Some (Ok (x :: l), k)
                               | r => r
                               end
           end
  end.
(** default_models.py 19-38: np.empty refuses a negative dimension *)
Definition default_bernoulli_paths (fuel : nat) (hazard : R -> res R) (maturity dt : R) (num_paths : Z) (draws : nat -> R) : option (res (list (option R)) * nat) :=
  if num_paths <? 0 then Some (Err ValueError, O) else default_loop fuel hazard maturity dt draws (Z.to_nat num_paths) 0.
