(** What a call does in Python. *)
From Coq Require Import List Bool Arith.
Import ListNotations.
From Verif Require Import CallTarget_Model.

Inductive code := CFunction (f : nat) | CBuiltin (d : nat) | CClass (c : nat).

Section Classes.
Variable class_attr : nat -> name -> option attr.
Variable class_of : obj -> nat.
Variable descr_name : nat -> name.

(** [calls o args r]: calling o with args runs the code with the arguments in r.  An instance is called by the __call__
    of its class, whatever attributes it has itself. *)
Inductive calls : obj -> list obj -> code * list obj -> Prop :=
| call_function f args : calls (Function f) args (CFunction f, args)
| call_descr d args : calls (Descr d) args (CBuiltin d, args)
| call_class c args : calls (Class c) args (CClass c, args)
| call_method s fn args r : calls fn (s :: args) r -> calls (Method s fn) args r
| call_builtin s d args : calls (Builtin s d) args (CBuiltin d, s :: args)
| call_instance_function c own f args r : class_attr c Call_ = Some (Plain (Function f)) ->
    calls (Function f) (Instance c own :: args) r -> calls (Instance c own) args r
| call_instance_descr c own d args r : class_attr c Call_ = Some (Plain (Descr d)) ->
    calls (Descr d) (Instance c own :: args) r -> calls (Instance c own) args r
| call_instance_other c own o args r : class_attr c Call_ = Some (Plain o) ->
    (forall f, o <> Function f) -> (forall d, o <> Descr d) ->
    calls o args r -> calls (Instance c own) args r
| call_instance_static c own o args r : class_attr c Call_ = Some (Static o) -> calls o args r -> calls (Instance c own) args r
| call_instance_classmethod c own o args r : class_attr c Call_ = Some (ClassMethod o) ->
    calls o (Class c :: args) r -> calls (Instance c own) args r.

(** a built-in method that its object's class defines under this name: not one reached by super() past a redefinition *)
Definition not_redefined (s : obj) (d : nat) : Prop :=
  class_attr (class_of s) (descr_name d) = None \/ class_attr (class_of s) (descr_name d) = Some (Plain (Descr d)).
Definition no_disguise (c : nat) (own : list (name * obj)) : Prop :=
  (forall n o, In (n, o) own -> n <> Self /\ n <> Func /\ n <> Call_) /\ class_attr c Self = None /\ class_attr c Func = None.
(** objects that do not pretend to be methods *)
Definition regular (o : obj) : Prop :=
  match o with
  | Builtin s d => not_redefined s d
  | Instance c own =>
      no_disguise c own /\
      match class_attr c Call_ with
      | Some (Plain (Descr d)) => not_redefined o d
      | Some (Plain (Builtin s d)) | Some (Static (Builtin s d)) => not_redefined s d
      | Some (Plain (Instance c' own')) | Some (Static (Instance c' own')) => no_disguise c' own'
      | _ => True
      end
  | _ => True
  end.
(** ways to refer to a function or to a built-in method *)
Inductive refers : obj -> obj -> Prop :=
| refer_function f : refers (Function f) (Function f)
| refer_descr d : refers (Descr d) (Descr d)
| refer_class c : refers (Class c) (Class c)
| refer_method s f : refers (Method s (Function f)) (Function f)
| refer_method_descr s d : refers (Method s (Descr d)) (Descr d)
| refer_builtin s d : class_attr (class_of s) (descr_name d) = Some (Plain (Descr d)) -> refers (Builtin s d) (Descr d)
| refer_instance c own f : class_attr c Call_ = Some (Plain (Function f)) -> no_disguise c own -> refers (Instance c own) (Function f)
| refer_static c own f : class_attr c Call_ = Some (Static (Function f)) -> no_disguise c own -> refers (Instance c own) (Function f).
End Classes.
