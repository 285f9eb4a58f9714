(* Model of crosshair/libimpl/builtinslib.py 2952-3010 (SymbolicCallable), the value that stands
   for an argument that is a function, with util.py 467-479 (ATOMIC_IMMUTABLE_TYPES).

   The list of values is taken as it is on the path; the elements of a list may be symbolic, but
   the list is realized before it is printed (core.py 1497-1500). *)
From Coq Require Import String.
From Coq Require Import ZArith List Bool Arith.
Import ListNotations.

Inductive val :=
  | VNone | VBool (b : bool) | VInt (z : Z) | VFloat (m e : Z) (* m * 2 ^ e *) | VNan | VInf (negative : bool)
  | VStr (s : string) | VList (l : list val) | VObject (n : nat).
(** isinstance(v, ATOMIC_IMMUTABLE_TYPES) *)
Definition atomic (v : val) : bool := match v with VList _ | VObject _ => false | _ => true end.

(** 2953-2977: the values and the index *)
Record callable := Callable { c_values : list val; c_idx : nat }.
(** the assertions in 2966-2975: a list that cannot be non-empty is an error *)
Definition make (values : list val) : option callable :=
  match values with [] => None | _ => Some (Callable values 0) end.
(** 2979-2980 __copy__ *)
Definition copy (c : callable) : option callable := make (skipn (c_idx c) (c_values c)).
(** 2994-3000 __call__: the arguments, by position and by name, are ignored *)
Record arguments := Arguments { a_pos : list val; a_kw : list (string * val) }.
Definition call (c : callable) (a : arguments) : val * callable :=
  if length (c_values c) <=? c_idx c then (last (c_values c) VNone, c)
  else (nth (c_idx c) (c_values c) VNone, Callable (c_values c) (S (c_idx c))).

(** 2982-2986 __eq__; [same] compares lists of values *)
Definition eq (same : list val -> list val -> bool) (c d : callable) : bool :=
  same (skipn (c_idx c) (c_values c)) (skipn (c_idx c) (c_values d)).
(** 2988-2992 __hash__ *)
Definition hash (c : callable) : Z := 42.

(** 3005-3010 __repr__: what is printed.  [Repr v] is the text that repr gives, [Raw s] the text s
    itself. *)
Inductive text := Repr (v : val) | Raw (s : string).
(** format(v, ""), for a value that is atomic, is str(v) *)
Definition format (v : val) : text :=
  match v with
  | VStr s => Raw s
  | VNan => Raw "nan"
  | VInf negative => Raw (if negative then "-inf" else "inf")
  | v => Repr v
  end.
Inductive printed :=
  | Lambda (t : text)            (** lambda *a: t *)
  | Popping (t : text).          (** (x:=t, lambda *a: x.pop(0) if len(x) > 1 else x[0])[1] *)
Definition print (c : callable) : printed :=
  match c_values c with
  | [v] => if atomic v then Lambda (format v) else Popping (Repr (VList [v]))
  | l => Popping (Repr (VList l))
  end.
