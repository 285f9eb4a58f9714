(** Model of functions decorated with functools.lru_cache or cache: libimpl/functoolslib.py
    27-32 (call_with_skipped_cache, a patch of the wrapper's __call__).  cache_info and
    cache_clear are those of the real wrapper, which sees no calls.

    The function is a parameter: from an argument and the state of the program it gives a
    result or an exception and a new state. *)
From Coq Require Import ZArith List Bool.
From Verif Require Import Py.
Import ListNotations.
Open Scope Z_scope.

(** An argument, hashable or not *)
Inductive arg := Hashable (k : Z) | Unhashable (k : Z).
Definition body (state : Type) := arg -> state -> res Z * state.
Inductive op := Call (a : arg) | Info | Clear.
(** What the program sees: the outcome of a call, or hits, misses and size *)
Inductive seen := SRes (r : res Z) | SInfo (hits misses size : Z) | SNone.

Section Function.
Variable state : Type.
Variable f : body state.
(** 27-30, called on a function with a cache *)
Definition call (a : arg) (s : state) : res Z * state := f a s.
Definition step (o : op) (s : state) : seen * state :=
  match o with
  | Call a => let (r, s) := call a s in (SRes r, s)
  | Info => (SInfo 0 0 0, s)
  | Clear => (SNone, s)
  end.
Fixpoint run (ops : list op) (s : state) : list seen * state :=
  match ops with
  | [] => ([], s)
  | o :: ops => let (x, s) := step o s in let (xs, s) := run ops s in (x :: xs, s)
  end.
End Function.
