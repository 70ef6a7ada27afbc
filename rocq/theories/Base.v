(** Shared vocabulary of the model. *)
From Coq Require Import ZArith List Bool Lia.
Import ListNotations.

(** Result of running a modelled C++ function: a value, a C++ exception, or
    undefined behaviour (out-of-bounds access, dereference of an end iterator
    or null pointer, ...), or fuel exhaustion of a loop of the model. *)
Inductive outcome (A : Type) : Type :=
| Ok (a : A)
| Throw
| UB
| NoFuel.
Arguments Ok {A} a.
Arguments Throw {A}.
Arguments UB {A}.
Arguments NoFuel {A}.

Definition bind {A B} (m : outcome A) (f : A -> outcome B) : outcome B :=
  match m with
  | Ok a => f a
  | Throw => Throw
  | UB => UB
  | NoFuel => NoFuel
  end.

Notation "'do' x <- m ; f" := (bind m (fun x => f))
  (at level 200, x pattern, m at level 100, f at level 200).

Definition of_option {A} (o : option A) : outcome A :=
  match o with Some a => Ok a | None => UB end.

Fixpoint mapM {A B} (f : A -> outcome B) (l : list A) : outcome (list B) :=
  match l with
  | [] => Ok []
  | a :: r => do b <- f a; do bs <- mapM f r; Ok (b :: bs)
  end.

Fixpoint foldM {A B} (f : B -> A -> outcome B) (l : list A) (b : B) : outcome B :=
  match l with
  | [] => Ok b
  | a :: r => do b' <- f b a; foldM f r b'
  end.
