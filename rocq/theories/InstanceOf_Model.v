(* Model of crosshair/libimpl/builtinslib.py 5028-5060 (issubclass and isinstance while code is
   analysed), for classes that are not symbolic (C126 is about those).

   Classes are numbers with a method resolution order and a metaclass; a symbolic value has the
   class it stands for (core.py 317-326). *)
From Coq Require Import String.
From Coq Require Import List Bool Arith.
From Verif Require Import Py.
Import ListNotations.

Record obj := Obj { o_type : nat; o_class : nat (** what __class__ gives *); o_attrs : list string }.
Inductive meta :=
  | Plain                                            (** type *)
  | Abc (check : nat -> bool)                        (** ABCMeta: the answer of __subclasscheck__ *)
  | Protocol (members : list string)                 (** a runtime checkable protocol with data members *)
  | Hooks (instance : option (obj -> bool)) (subclass : option (nat -> bool)).  (** a metaclass with hooks of its own *)
Inductive types := One (c : nat) | Many (l : list types).

Section Classes.
  Variable mro : nat -> list nat.
  Variable metaclass : nat -> meta.
  Definition inherits (d c : nat) : bool := existsb (Nat.eqb c) (mro d).
  (** the built-in issubclass, which 5054 calls: type(c).__subclasscheck__ *)
  Definition builtin_issubclass (d c : nat) : res bool :=
    match metaclass c with
    | Plain | Hooks _ None => Ok (inherits d c)
    | Abc check => Ok (check d)
    | Protocol _ => Err TypeError
    | Hooks _ (Some check) => Ok (check d)
    end.
  (** 5028-5054 *)
  Fixpoint issubclass (d : nat) (t : types) : res bool :=
    match t with
    | One c => builtin_issubclass d c
    | Many l => (fix any (l : list types) : res bool :=
                   match l with
                   | [] => Ok false
                   | t :: l => match issubclass d t with Ok false => any l | r => r end
                   end) l
    end.
  (** 5057-5058 *)
  Definition isinstance (o : obj) (t : types) : res bool := issubclass (o_type o) t.
End Classes.
