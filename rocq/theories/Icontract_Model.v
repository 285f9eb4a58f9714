(** Model of the reading and evaluation of icontract's contracts: crosshair/condition_parser.py 742-890,
    crosshair/core.py attempt_call 1531-1548, 1572-1578, 1624-1633 (the names that conditions see) and
    crosshair/enforce.py 102-130.

    icontract passes to a condition those of the resolved names that the condition has as parameters, and fails with
    TypeError if a parameter without default is not among them (icontract._checkers.select_condition_kwargs,
    select_capture_kwargs: called by the code, 774-777, 829-833). *)
From Coq Require Import List Bool String.
From Verif Require Import Py.
Import ListNotations.

Section Icontract.
Variables V store : Type.

(** names and their values; None: not there *)
Definition env := string -> option V.
Definition put (e : env) (n : string) (v : V) : env := fun m => if String.eqb m n then Some v else e m.
Definition del (e : env) (n : string) : env := fun m => if String.eqb m n then None else e m.

(** a condition or capture: its parameters, those without default, and its result for the values passed (None: the
    default is used); the program's state is what it can read besides *)
Record lambda (R : Type) := Lambda { params : list string; mandatory : list string; run : store -> list (option V) -> res R }.
Arguments params {R}. Arguments mandatory {R}. Arguments run {R}.
Definition missing {R} (f : lambda R) (e : env) : bool :=
  existsb (fun n => match e n with None => true | Some _ => false end) (mandatory f).
(** 774-778 eval_contract and the like *)
Definition call {R} (f : lambda R) (s : store) (e : env) : res R :=
  if missing f e then Err TypeError else run f s (map e (params f)).

(** checker.__preconditions__: groups of which one must hold; __postcondition_snapshots__: names with captures *)
Record checker := Checker { groups : list (list (lambda bool)); snapshots : list (string * lambda V); posts : list (lambda bool) }.
(** icontract._checkers.Old *)
Variable old_of : list (string * V) -> V.

(** 798-807 *)
Fixpoint conjunction (s : store) (e : env) (l : list (lambda bool)) : res bool :=
  match l with
  | [] => Ok true
  | c :: l => do ok <- call c s e; if ok then conjunction s e l else Ok false
  end.
Fixpoint eval_disjunction (s : store) (e : env) (l : list (list (lambda bool))) : res bool :=
  match l with
  | [] => Ok false
  | g :: l => do ok <- conjunction s e g; if ok then Ok true else eval_disjunction s e l
  end.
Definition condition := store -> env -> res bool.
(** 780-821 *)
Definition pre_conditions (c : checker) : list condition :=
  match groups c with
  | [] => []
  | [g] => map (fun k s e => call k s e) g
  | _ => [fun s e => eval_disjunction s e (groups c)]
  end.

(** 825-834 take_snapshots *)
Fixpoint captures (s : store) (old : env) (l : list (string * lambda V)) : res (list (string * V)) :=
  match l with
  | [] => Ok []
  | (n, f) :: l => do v <- call f s old; do r <- captures s old l; Ok ((n, v) :: r)
  end.
(** 836-845 post_eval: [old] are the names of __old__, [e] those of the call, with __return__ and _ *)
Definition post_eval (c : checker) (k : lambda bool) (s : store) (old e : env) (ret : V) : res bool :=
  do snap <- captures s old (snapshots c);
  call k s (del (del (put (put (del e "__old__") "OLD" (old_of snap)) "result" ret) "__return__") "_").
(** 847-863: a condition that always holds, if there are only preconditions *)
Definition post_conditions (c : checker) : list (store -> env -> env -> V -> res bool) :=
  match posts c, pre_conditions c with
  | [], _ :: _ => [fun _ _ _ _ => Ok true]
  | l, _ => map (post_eval c) l
  end.

(** core.py 1531-1543: preconditions see __old__ too *)
Variable holder : V.    (* an AttributeHolder *)
Fixpoint all_hold (l : list (res bool)) : res bool :=
  match l with [] => Ok true | r :: l => do ok <- r; if ok then all_hold l else Ok false end.
Definition check_pre (c : checker) (s : store) (args : env) : res bool :=
  let e := fun n => match args n with Some v => Some v | None => if String.eqb n "__old__" then Some holder else None end in
  all_hold (map (fun k => k s e) (pre_conditions c)).
(** core.py 1572-1578, 1633: the arguments after the call, then __return__, _, __old__ and the function itself;
    [before] are copies of the arguments as they were *)
Variable fn_name : string.
Variable fn_value : V.
Definition call_env (args : env) (ret : V) : env :=
  put (put (put (put args "__return__" ret) "_" ret) "__old__" holder) fn_name fn_value.
Definition check_post (c : checker) (s : store) (before after : env) (ret : V) : res bool :=
  all_hold (map (fun k => k s before (call_env after ret) ret) (post_conditions c)).
(** enforce.py 116-128: globals are there as well, the function is not *)
Definition enforced_env (globals args : env) (ret : V) : env :=
  put (put (put (fun n => match args n with Some v => Some v | None => globals n end) "__return__" ret) "_" ret) "__old__" holder.
Definition enforce_post (c : checker) (s : store) (globals before after : env) (ret : V) : res bool :=
  all_hold (map (fun k => k s before (enforced_env globals after ret) ret) (post_conditions c)).

(** 875-890 inv_eval: self is always passed *)
Definition check_invariant (k : lambda bool) (s : store) (self : V) : res bool :=
  if existsb (String.eqb "self") (params k)
  then call k s (put (fun _ => None) "self" self)
  else Err TypeError.
End Icontract.
Arguments params {V store R}. Arguments mandatory {V store R}. Arguments run {V store R}.
Arguments Lambda {V store R}. Arguments Checker {V store}. Arguments groups {V store}. Arguments snapshots {V store}. Arguments posts {V store}.
