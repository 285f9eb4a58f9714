(** Shared vocabulary: Python exceptions as values. *)
From Coq Require Import ZArith List.

Inductive exc :=
| ZeroDivisionError | ValueError | OverflowError | IndexError | KeyError
| TypeError | StructError | UnicodeError | BinasciiError | AttributeError
| StopIteration | OutOfFuel | NotImplementedE | BufferError | UnboundLocalError
| AssertionError | RuntimeError | ReError | OSError.

(** Outcome of a call: a value or a raised exception.  [OutOfFuel] is not a Python
    exception: it marks a model loop whose fuel ran out. *)
Inductive res (A : Type) := Ok (a : A) | Err (e : exc).
Arguments Ok {A}.
Arguments Err {A}.

Definition bind {A B} (x : res A) (f : A -> res B) : res B :=
  match x with Ok a => f a | Err e => Err e end.
Notation "'do' x <- a ; b" := (bind a (fun x => b))
  (at level 200, x binder, a at level 100, b at level 200, right associativity).

Definition map_res {A B} (f : A -> B) (x : res A) : res B :=
  match x with Ok a => Ok (f a) | Err e => Err e end.
