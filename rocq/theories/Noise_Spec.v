(** What the filter should do with an exception of the program. *)
From Coq Require Import String List Bool.
From Verif Require Import Noise_Model.
Import ListNotations.
Open Scope string_scope.

Definition mentions (s sub : string) : Prop := exists a b, s = a ++ sub ++ b.

(** An exception that the checked program raised: an Exception, not one of the engine's,
    and not one that its contract allows. *)
Definition of_program (e : raised) : Prop :=
  is_exception e = true /\ is_engine e = false /\ is_postcondition_failed e = false /\
  is_ignore_attempt e = false /\ is_expected e = false.

(** Texts that are taken for signs of symbolic values. *)
Definition signs : list string :=
  ["SymbolicInt"; "SymbolicFloat"; "SymbolicStr"; "SymbolicBytes";
   "__hash__ method should return an integer"; "expected string or bytes-like object"].
(** Texts of errors that symbolic and ordinary values cause alike. *)
Definition genuine : list string :=
  ["can only concatenate"; "NoneType"; "object is not callable"].

(** The classes of symbolic values with which programs are run (builtinslib.py,
    arraylib.py), as they appear in messages of the interpreter. *)
Definition noticed : list string :=
  ["SymbolicInt"; "PreciseIeeeSymbolicFloat"; "RealBasedSymbolicFloat";
   "LazyIntSymbolicStr"; "SymbolicBytes"].
Definition unnoticed : list string :=
  ["SymbolicBool"; "SymbolicBoundedInt"; "SymbolicDict"; "SymbolicFrozenSet"; "SymbolicArrayBasedUniformTuple";
   "SymbolicRange"; "SymbolicList"; "SymbolicType"; "SymbolicObject"; "SymbolicCallable";
   "SymbolicUniformTuple"; "SymbolicBoundedIntTuple"; "SymbolicByteArray";
   "SymbolicMemoryView"; "SymbolicArray"].
