(** type.__call__ (Objects/typeobject.c type_call), and the contract that belongs to a call. *)
From Coq Require Import List Bool Arith.
From Verif Require Import Py EnfCall_Model.
Import ListNotations.
Section Spec.
Variables V event : Type.
Variable is_none : V -> bool.
(** __new__, then the __init__ of the class if __new__ gave an instance; __init__ must return None *)
Definition type_call (c : class V event) (args : list V) : run event V :=
  match new c args with
  | (l, Err e) => (l, Err e)
  | (l, Ok obj) =>
      if instance_of c obj then
        match init c obj args with
        | (m, Err e) => (l ++ m, Err e)
        | (m, Ok r) => (l ++ m, if is_none r then Ok obj else Err TypeError)
        end
      else (l, Ok obj)
  end.
(** calling a class: its metaclass decides *)
Definition py_construct (c : class V event) (args : list V) : run event V :=
  match meta_call c with Some f => f (type_call c) args | None => type_call c args end.
End Spec.
