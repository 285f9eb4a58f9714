(** Model of how inputs of user classes and of enums are made and printed: core.py 493-558
    (proxy_for_class, without TypedDict) with 670-700 (LazyCreationRepr), and 727-735
    (enums in proxy_for_type). *)
From Coq Require Import ZArith List Bool.
Import ListNotations.
Open Scope Z_scope.

(** What is chosen for an argument on a path: a number, the items of a list, or a class with
    the choices for its constructor's arguments. *)
Inductive input := IInt (z : Z) | IList (l : list Z) | IObj (c : nat) (args : list input).
(** A value.  An object has a state; [args] is what the arguments it was constructed with are
    by now, which is what the closure of 551-555 refers to. *)
Inductive val := VInt (z : Z) | VList (l : list Z) | VObj (c : nat) (state args : list val).
(** What is printed: calls of constructors *)
Inductive expr := EInt (z : Z) | EList (l : list Z) | ECall (c : nat) (args : list expr).

(** What a constructor may do: make an object, leaving its arguments in some condition, or
    raise. *)
Inductive problem := PreFailed | PostFailed | AnException | BaseOnly.
Inductive ran := Made (state after : list val) | Raised (p : problem).

Section Classes.
Variable ctor : nat -> list val -> ran.

(** What comes of an attempt to make an input *)
Inductive built := Built (v : val) | Ignored | Unsupported | Escapes (p : problem).
(** 538-548: the exceptions of the constructor call *)
Definition on_problem (p : problem) : built :=
  match p with
  | PreFailed | PostFailed => Ignored           (* 540-543 IgnoreAttempt *)
  | AnException => Unsupported                  (* 544-548 CrosshairUnsupported *)
  | BaseOnly => Escapes p
  end.
(** 533-556; 758-814 gen_args makes the arguments in order *)
Fixpoint build (i : input) : built :=
  match i with
  | IInt z => Built (VInt z)
  | IList l => Built (VList l)
  | IObj c args =>
      (fix gen (is : list input) (acc : list val) : built :=
         match is with
         | [] => match ctor c (rev acc) with
                 | Made st after => Built (VObj c st after)
                 | Raised p => on_problem p
                 end
         | i :: is => match build i with Built v => gen is (v :: acc) | other => other end
         end) args []
  end.
(** 551-555 regenerate_construction_string, run when the path is over; 670-684 keeps the
    strings of objects among the arguments *)
Fixpoint print (v : val) : expr :=
  match v with
  | VInt z => EInt z
  | VList l => EList l
  | VObj c _ args => ECall c (map print args)
  end.
End Classes.

(** 727-735: [list(typ)] of an enum, then a decision for each but the last *)
Inductive chosen (A : Type) := Chosen (a : A) | NoValues.
Arguments Chosen {A}. Arguments NoValues {A}.
Fixpoint choose_enum {A} (values : list A) (fork : list bool) : chosen A :=
  match values with
  | [] => NoValues
  | [v] => Chosen v
  | v :: values => match fork with
                   | true :: _ => Chosen v
                   | false :: fork => choose_enum values fork
                   | [] => Chosen v
                   end
  end.
(** An enum class: whether it is a Flag, and its members' values as written.  [list] of it
    gives each value once, in order; of a Flag only those of one bit (Python 3.11). *)
Record enum := Enum { is_flag : bool; written : list Z }.
Fixpoint once (seen l : list Z) : list Z :=
  match l with
  | [] => []
  | x :: r => if existsb (Z.eqb x) seen then once seen r else x :: once (x :: seen) r
  end.
Definition one_bit (z : Z) : bool := (0 <? z) && (z =? 2 ^ Z.log2 z).
Definition members (e : enum) : list Z :=
  if is_flag e then filter one_bit (once [] (written e)) else once [] (written e).
Definition m_enum (e : enum) (fork : list bool) : chosen Z := choose_enum (members e) fork.
