(** Python classes and abstract methods (CPython abc.ABCMeta; not a file of /repo). *)
From Verif Require Import Base.
Open Scope Z_scope.

(** ---- classes and abstract methods ---- *)
(** What a class statement contributes: its base, and the names it defines with and without @abstractmethod.  ABCMeta
    (the metaclass of every collections.abc class) collects the abstract names: those defined abstract here, and those
    inherited abstract and not redefined. *)
Inductive pyclass := Root | Class (base : pyclass) (abstract_names concrete_names : list string).
(** CPython ABCMeta: cls.__abstractmethods__ *)
Fixpoint abstract_methods (c : pyclass) : list string :=
  match c with
  | Root => []
  | Class b abs conc => abs ++ filter (fun s => negb (existsb (String.eqb s) (abs ++ conc))) (abstract_methods b)
  end.
(** object.__new__ refuses an abstract class *)
Definition instantiate {A} (c : pyclass) (init : res A) : res A :=
  match abstract_methods c with [] => init | _ => Err TypeError end.
