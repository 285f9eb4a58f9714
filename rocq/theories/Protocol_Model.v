(** Model of the built-in functions that call special methods: crosshair/libimpl/builtinslib.py _hash 4924-4933, _len
    5063-5067, _repr 5106-5112, _setattr 5120-5127, _sorted 5131-5136, with invoke_dunder 243-262 and util.py
    is_iterable 72-77 and is_hashable 80-81.

    A special method is given by its outcome.  Not modelled: __getattr__ and descriptors. *)
From Coq Require Import ZArith List Bool.
Import ListNotations.
From Verif Require Import Py.
Open Scope Z_scope.

(** what a special method may return *)
Inductive value :=
| Int (z : Z)
| Bool (b : bool)
| Index (z : Z)        (* an object with __index__ *)
| Text (s : list Z)
| Items (l : list Z)   (* an iterator over items *)
| Other.
Definition outcome := res value.

(** an object: the special methods of its class, and attributes of the same name that the object has itself *)
Record object := Object {
  class_len : option outcome; own_len : option outcome;
  class_hash : option outcome;       (* None: __hash__ = None *)
  class_repr : outcome;              (* every class has one *)
  class_iter : option outcome; own_iter : option outcome;
  class_getitem : option (list Z)    (* the items that __getitem__ gives for 0, 1, 2 ... *)
}.

(** 5063-5067 *)
Definition len_ (o : object) : outcome :=
  match own_len o, class_len o with
  | Some r, _ => r
  | None, Some r => r
  | None, None => Err TypeError
  end.
(** 4924-4933 *)
Definition hash_ (o : object) : outcome :=
  match class_hash o with
  | None => Err TypeError
  | Some r => r
  end.
(** 5106-5112 *)
Definition repr_ (o : object) : outcome := class_repr o.
(** util.py 72-77; iter() takes the __iter__ of the class, which must give an iterator, or else __getitem__ *)
Definition is_iterable (o : object) : res bool :=
  match class_iter o with
  | Some (Ok (Items _)) => Ok true
  | Some (Ok _) => Ok false
  | Some (Err TypeError) => Ok false
  | Some (Err e) => Err e
  | None => match class_getitem o with Some _ => Ok true | None => Ok false end
  end.
Section Sort.
Variable sort : list Z -> list Z.
(** 5131-5136: list(ls.__iter__()), sorted *)
Definition sorted_ (o : object) : res (list Z) :=
  do i <- is_iterable o;
  if negb i then Err TypeError else
  match own_iter o, class_iter o with
  | None, None => Err AttributeError
  | Some r, _ | None, Some r =>
      match r with
      | Err e => Err e
      | Ok (Items l) => Ok (sort l)
      | Ok _ => Err TypeError
      end
  end.
End Sort.

(** 5120-5127.  Attributes of an object by name; [symbolic_name]: the name is a symbolic string (its type is never the
    abstract AnySymbolicStr itself, so that it is not realized).  A symbolic type is realized to the class that it
    stands for; symbolic numbers and containers have no attributes to set. *)
Definition attributes := list (nat * Z).
Definition setattr_ (symbolic_name : bool) (attrs : attributes) (name : nat) (v : Z) : res attributes :=
  if symbolic_name then Err TypeError else Ok ((name, v) :: attrs).
