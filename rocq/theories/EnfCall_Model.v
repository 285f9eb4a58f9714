(** Model of what happens to a call while contracts are enforced: crosshair/enforce.py manual_constructor 48-59 and
    EnforcedConditions.trace_call 239-282. *)
From Coq Require Import List Bool Arith.
From Verif Require Import Py.
Import ListNotations.

(** * Construction *)
(** What a piece of code does to the program: the events it leaves, and its result *)
Section Construct.
Variables V event : Type.
Definition run (R : Type) := (list event * res R)%type.
Definition then_ {A B} (a : run A) (f : A -> run B) : run B :=
  match a with
  | (l, Err e) => (l, Err e)
  | (l, Ok v) => let '(m, r) := f v in (l ++ m, r)
  end.
(** a class: its metaclass's own __call__ if there is one (it is given type.__call__ as super().__call__), its __new__
    and the __init__ that an instance has *)
Record class := Class {
  meta_call : option ((list V -> run V) -> list V -> run V);
  new : list V -> run V;
  instance_of : V -> bool;                 (* isinstance(obj, cls) *)
  init : V -> list V -> run V              (* type(obj).__init__ *)
}.
(** 49-57 *)
Definition manually_construct (own_init : V -> option (list V -> run V)) (c : class) (args : list V) : run V :=
  then_ (new c args) (fun obj =>
    if instance_of c obj then
      then_ (match own_init obj with Some f => f args | None => init c obj args end) (fun _ => ([], Ok obj))
    else ([], Ok obj)).
End Construct.
Arguments Class {V event}. Arguments meta_call {V event}. Arguments new {V event}. Arguments instance_of {V event}. Arguments init {V event}.

(** * Which contract *)
Section Lookup.
(** classes, functions, names and contracts *)
Variables cls fn name contract : Type.
Inductive value := AClass (c : cls) | AnObject (c : cls).
Inductive target := AFunction (f : fn) | NoEnforced (f : fn) | AType (c : cls).
Variable fn_name : fn -> option name.            (* __name__ *)
Variable skipped_name : name -> bool.             (* 252: ends with ">" or "_crosshair_wrapper" *)
Variable is_super_or_type : cls -> bool.
Variable has_any : contract -> bool.
(** parser.get_class_conditions(c).methods, parser.get_fn_conditions(FunctionInfo(None, "", fn)) *)
Variable class_methods : cls -> name -> option contract.
Variable fn_contract : fn -> option contract.
Variable metaclass : cls -> cls.
Definition type_of (v : value) : cls := match v with AClass c => metaclass c | AnObject c => c end.
Inductive action := Unchanged | Plain (f : fn) | Construct (c : cls) | Check (f : fn) (k : contract).
(** 245-282; [wanted]: the caller's code is not in one of the files without enforcement *)
Definition trace_call (wanted : bool) (t : target) (binding : option value) : action :=
  if negb wanted then Unchanged
  else
    let target_name := match t with AFunction f => fn_name f | _ => None end in
    if match target_name with Some n => skipped_name n | None => false end then Unchanged
    else match t with
    | NoEnforced f => Plain f
    | AType c => if is_super_or_type c then Unchanged else Construct c
    | AFunction f =>
        let methods c := match target_name with Some n => class_methods c n | None => None end in
        let found :=
          match binding with
          | None => fn_contract f
          | Some b =>
              let direct := match b with AClass c => methods c | AnObject _ => None end in
              match direct with
              | Some k => if has_any k then Some k else methods (type_of b)
              | None => methods (type_of b)
              end
          end in
        match found with
        | Some k => if has_any k then Check f k else Unchanged
        | None => Unchanged
        end
    end.
End Lookup.
