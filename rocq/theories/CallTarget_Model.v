(** Model of the finding and replacing of what a call instruction calls: crosshair/_tracers.c
    crosshair_tracers_generic_getattr_optional 1358-1379, crosshair_tracers_normalize_call_target_impl 1381-1497 and
    CTracer_call_trace_op_fast 1577-1711; crosshair/tracers.py TracingModule.trace_op 140-186 is the same in Python.

    Objects are trees.  Not modelled: None as the self of a method, data descriptors, attributes of metaclasses seen
    through their classes, the realization of keyword names (157-175), objects that must not be traced (177-178). *)
From Coq Require Import List Bool Arith.
Import ListNotations.

(** names of attributes *)
Inductive name := Self | Func | Call_ | Name_ | Other (n : nat).
Definition name_eqb (a b : name) : bool :=
  match a, b with
  | Self, Self => true | Func, Func => true | Call_, Call_ => true | Name_, Name_ => true
  | Other n, Other m => Nat.eqb n m
  | _, _ => false
  end.
Inductive obj :=
| Function (f : nat)                       (* types.FunctionType *)
| Descr (d : nat)                          (* list.append, int.__add__: descriptors of built-in methods *)
| Class (c : nat)
| Module (m : nat)
| Method (self fn : obj)                   (* types.MethodType *)
| Builtin (self : obj) (d : nat)           (* [].append, (1).__add__, and math.sqrt, whose __self__ is its module *)
| Instance (c : nat) (own : list (name * obj)) (* with its own attributes *)
| Str (n : name).
(** an attribute as it stands in a class: functions and descriptors of methods are bound to the instance *)
Inductive attr := Plain (o : obj) | Static (o : obj) | ClassMethod (o : obj).

Section Classes.
(** the attribute that the class or its bases define *)
Variable class_attr : nat -> name -> option attr.
Variable class_of : obj -> nat.
(** __name__ of a built-in method *)
Variable descr_name : nat -> name.

Definition bind_attr (self : obj) (c : nat) (a : attr) : obj :=
  match a with
  | Plain (Function f) => Method self (Function f)
  | Plain (Descr d) => Builtin self d
  | Plain o => o
  | Static o => o
  | ClassMethod o => Method (Class c) o
  end.
(** getattr on the class itself *)
Definition type_getattr (c : nat) (n : name) : option obj :=
  match class_attr c n with
  | None => None
  | Some (Plain o) => Some o
  | Some (Static o) => Some o
  | Some (ClassMethod o) => Some (Method (Class c) o)
  end.
Fixpoint own_attr (l : list (name * obj)) (n : name) : option obj :=
  match l with [] => None | (m, o) :: l => if name_eqb m n then Some o else own_attr l n end.
(** PyObject_GenericGetAttr, for the names that are asked for: what an instance has itself comes first *)
Definition generic_getattr (o : obj) (n : name) : option obj :=
  match o with
  | Method s f => match n with Self => Some s | Func => Some f | _ => None end
  | Builtin s d => match n with Self => Some s | Name_ => Some (Str (descr_name d)) | _ => None end
  | Instance c own =>
      match own_attr own n with
      | Some v => Some v
      | None => match class_attr c n with Some a => Some (bind_attr o c a) | None => None end
      end
  | _ => None
  end.
(** tracers.py 120-126 *)
Definition is_selfless (o : obj) : bool :=
  match o with Function _ | Descr _ | Class _ => true | _ => false end.
(** tracers.py 107-119 *)
Definition is_normal (o : obj) : bool :=
  match o with Function _ | Descr _ | Class _ | Method _ _ | Builtin _ _ => true | _ => false end.

(** 1381-1497: the target and what it is bound to; None when an exception is raised *)
Definition normalize (target : obj) : option (obj * option obj) :=
  let bound_self := if is_selfless target then None else generic_getattr target Self in
  let '(target, bound_self) :=
    match bound_self with
    | Some _ => (target, bound_self)
    | None =>
        if is_normal target then (target, None)
        else match generic_getattr target Call_ with
             | None => (target, None)
             | Some call_target => (call_target, generic_getattr call_target Self)
             end
    end in
  match bound_self with
  | None => Some (target, None)
  | Some s =>
      match generic_getattr target Func with
      | Some func => Some (func, Some s)
      | None =>
          match generic_getattr target Name_ with
          | Some (Str n) =>
              match type_getattr (class_of s) n with
              | None => Some (target, None)
              | Some typelevel => Some (typelevel, Some s)
              end
          | _ => None
          end
      end
  end.

(** 1577-1711: what is called in the end; a replacement is a function (a wrapper or a patch), so that its __get__
    makes a method *)
Definition trace_op (replacement : obj -> option nat) (target : obj) : option obj :=
  match normalize target with
  | None => None
  | Some (t, binding) =>
      match replacement t, binding with
      | None, _ => Some target
      | Some r, None => Some (Function r)
      | Some r, Some s => Some (Method s (Function r))
      end
  end.
End Classes.
