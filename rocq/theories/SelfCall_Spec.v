(** Python: a method called through its class. *)
From Coq Require Import List Bool.
From Verif Require Import Py SelfCall_Model.
Import ListNotations.

Section Calls.
Variables cls name payload : Type.
Variable sub : cls -> cls -> bool.
Variable meth : cls -> name -> payload -> list (pure payload) -> res payload.
(** The object must be of the class or a subclass of it; whether it is symbolic is not seen *)
Definition class_of (o : obj cls payload) : cls := match o with Native _ _ c _ | Proxy _ _ c _ => c end.
Definition value_of (o : obj cls payload) : payload := match o with Native _ _ _ v | Proxy _ _ _ v => v end.
Fixpoint seen (a : arg payload) : pure payload :=
  match a with
  | ANative _ v => PVal _ v
  | AProxy _ v => PVal _ v
  | ATuple _ l => PTuple _ (map seen l)
  end.
Definition p_call (c : cls) (n : name) (self : obj cls payload) (args : list (arg payload)) : res payload :=
  if sub (class_of self) c then meth c n (value_of self) (map seen args) else Err TypeError.
End Calls.
