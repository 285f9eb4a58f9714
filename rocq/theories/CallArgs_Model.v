(** Model of the arguments made for a call: crosshair/core.py gen_args 758-814 and the call in attempt_call 1568-1571,
    with the standard library's inspect.BoundArguments.args and .kwargs (Python 3.11, Lib/inspect.py 2763-2812).

    The value made for a parameter (proxy_for_type) is given: one value, a list for "*args", a dictionary for
    "**kwargs".  Its keys are the texts that the path gives to them (793, and tracers.py 166-178).  Names are
    numbers. *)
From Coq Require Import ZArith List Bool.
Import ListNotations.

Inductive pkind := PosOnly | PosKw | VarPos | KwOnly | VarKw.
Record param := Param { pname : Z; kind : pkind; has_default : bool }.

Section Values.
Variable V : Type.
Inductive aval := One (v : V) | Many (l : list V) | Dict (d : list (Z * V)).

(** 763-813: a value for each parameter, whether it has a default or not *)
Definition gen_args (value : param -> aval) (sig : list param) : list (Z * aval) := map (fun p => (pname p, value p)) sig.
Fixpoint lookup (d : list (Z * aval)) (k : Z) : option aval :=
  match d with [] => None | (k', v) :: d => if Z.eqb k' k then Some v else lookup d k end.

(** BoundArguments.args *)
Fixpoint args_of (arguments : list (Z * aval)) (sig : list param) : list V :=
  match sig with
  | [] => []
  | p :: sig =>
      match kind p with
      | VarKw | KwOnly => []
      | k => match lookup arguments (pname p) with
             | None => []
             | Some a => match k, a with VarPos, Many l => l | _, One v => [v] | _, _ => [] end ++ args_of arguments sig
             end
      end
  end.
(** dict[k] = v and dict.update *)
Fixpoint put (d : list (Z * V)) (k : Z) (v : V) : list (Z * V) :=
  match d with [] => [(k, v)] | (k', v') :: d => if Z.eqb k' k then (k', v) :: d else (k', v') :: put d k v end.
Definition update (d e : list (Z * V)) : list (Z * V) := fold_left (fun d p => put d (fst p) (snd p)) e d.
(** BoundArguments.kwargs *)
Fixpoint kwargs_of (arguments : list (Z * aval)) (sig : list param) (started : bool) (kwargs : list (Z * V)) : list (Z * V) :=
  match sig with
  | [] => kwargs
  | p :: sig =>
      let here := lookup arguments (pname p) in
      let keyword := match kind p with VarKw | KwOnly => true | _ => false end in
      if negb started && negb keyword then
        match here with None => kwargs_of arguments sig true kwargs | Some _ => kwargs_of arguments sig false kwargs end
      else
        kwargs_of arguments sig true
          match here with
          | None => kwargs
          | Some (Dict d) => match kind p with VarKw => update kwargs d | _ => kwargs end
          | Some (One v) => match kind p with VarKw => kwargs | _ => put kwargs (pname p) v end
          | Some (Many _) => kwargs
          end
  end.
End Values.
Arguments One {V}. Arguments Many {V}. Arguments Dict {V}.

(** What conditions see of a parameter (1531-1535, 1572-1578: the BoundArguments.arguments themselves), as a
    Python value *)
Inductive pyval V := PyOne (v : V) | PyList (l : list V) | PyTuple (l : list V) | PyDict (d : list (Z * V)).
Arguments PyOne {V}. Arguments PyList {V}. Arguments PyTuple {V}. Arguments PyDict {V}.
Definition condition_sees {V} (a : aval V) : pyval V :=
  match a with One v => PyOne v | Many l => PyList l | Dict d => PyDict d end.
