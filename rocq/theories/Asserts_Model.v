(* Model of assert-based contracts: crosshair/condition_parser.py 1016-1119 (AssertsParser),
   crosshair/util.py 208-241 (sourcelines, frame_summary_for_fn) and the part of
   crosshair/core.py 1569-1608 (attempt_call) that reports an exception of the body.

   Simplifications.  Names, files and exceptions other than AssertionError are integers.
   A statement is what it does to the state of the call; when it raises, it says at which
   line of the function and with which frames below.  Two paths name the same file when they
   are equal (os.path.samefile is the identity on integers). *)
From Coq Require Import ZArith List Bool.
Import ListNotations.
Local Open Scope Z_scope.

Inductive exc := AssertionErr | Other (n : Z).

(** one entry of traceback.extract_tb *)
Record frame := Frame { fr_name : Z; fr_file : Z; fr_line : Z }.

Section Asserts.
  Variables (St V : Type).
  Variable vnone : V.      (** None *)

  (** an assert statement either lets the call go on or raises; evaluating the test or the
      message may raise anything, possibly in a callee *)
  Inductive checked :=
  | Holds (s : St)
  | Fails (e : exc) (line : Z) (inner : list frame).

  Inductive stepped :=
  | Next (s : St)
  | Return (v : V)
  | Raise (e : exc) (line : Z) (inner : list frame).

  (** a statement of the function's body with its line in the function's own source
      (1 is the first line of sourcelines(fn), decorators included) *)
  Inductive stmt :=
  | SAssert (line : Z) (test : St -> checked)
  | SString (line : Z)
  | SOther (line : Z) (run : St -> stepped).

  Definition stmt_line (t : stmt) : Z :=
    match t with SAssert l _ => l | SString l => l | SOther l _ => l end.

  Record func := Func {
    fn_name : Z;               (** fn.__name__ *)
    fn_file : option Z;        (** inspect.getsourcefile(fn); None also when it raises TypeError *)
    co_name : Z;               (** what frames of the function with the asserts show *)
    co_file : Z;
    first_line : Z;            (** sourcelines(fn)[1] *)
    is_def : bool;             (** there is source text, and it is a plain "def" *)
    outer : list frame;        (** wrappedfn, NoEnforce.__call__ and wrappers around the function *)
    body : list stmt }.

  (** What Python does with the statements. *)
  Inductive outcome := Returned (v : V) | Raised (e : exc) (tb : list frame).

  Definition traceback (f : func) (line : Z) (inner : list frame) : list frame :=
    outer f ++ Frame (co_name f) (co_file f) line :: inner.

  Fixpoint exec (f : func) (b : list stmt) (s : St) : outcome :=
    match b with
    | [] => Returned vnone
    | SString _ :: r => exec f r s
    | SAssert _ test :: r =>
        match test s with
        | Holds s' => exec f r s'
        | Fails e l inner => Raised e (traceback f l inner)
        end
    | SOther _ run :: r =>
        match run s with
        | Next s' => exec f r s'
        | Return v => Returned v
        | Raise e l inner => Raised e (traceback f l inner)
        end
    end.

  (** condition_parser.py 1048-1057: the loop over ast_fn.body; gives found_any_preconditions
      and the line of [statement], the last statement looked at. *)
  Fixpoint scan (found : bool) (line : Z) (b : list stmt) : bool * Z :=
    match b with
    | [] => (found, line)
    | SAssert l _ :: r => scan true l r
    | SString l :: r => scan found l r
    | SOther l _ :: _ => (found, l)
    end.

  (** condition_parser.py 1031-1061, get_first_body_line *)
  Definition get_first_body_line (f : func) : option Z :=
    if is_def f then
      let '(found, line) := scan false 0 (body f) in
      if found then Some (first_line f + (line - 1)) else None
    else None.

  (** util.py 228-241, frame_summary_for_fn: the line *)
  Definition frame_line (f : func) (tb : list frame) : Z :=
    match fn_file f with
    | None => 0
    | Some file =>
        match find (fun fr => (fr_name fr =? fn_name f) && (fr_file fr =? file)) (rev tb) with
        | Some fr => if fr_line fr =? 0 then 1 else fr_line fr
        | None => first_line f
        end
    end.

  (** condition_parser.py 1084-1096, wrappedfn *)
  Definition wrapped (f : func) (first_body_line : Z) (s : St) : outcome :=
    match exec f (body f) s with
    | Raised AssertionErr tb =>
        if first_body_line <=? frame_line f tb then Raised AssertionErr tb
        else Returned vnone
    | o => o
    end.

  (** condition_parser.py 1063-1116 and core.py 1539-1668 for such conditions: there are no
      preconditions, mutable_args is None and the only postcondition is True.  [expected]
      are the exceptions of the docstring's raises lines.  One call with inputs [s] either
      counts as confirming, or is reported as an exception at a line. *)
  Inductive verdict := Confirms | Reports (e : exc) (line : Z).

  Definition judge (f : func) (expected : exc -> bool) (fbl : Z) (s : St) : verdict :=
    match wrapped f fbl s with
    | Returned _ => Confirms
    | Raised e tb => if expected e then Confirms else Reports e (frame_line f tb)
    end.

  (** None: the function is not analyzed *)
  Definition check (f : func) (expected : exc -> bool) (s : St) : option verdict :=
    match get_first_body_line f with
    | None => None
    | Some fbl => Some (judge f expected fbl s)
    end.
End Asserts.

Arguments Holds {St}. Arguments Fails {St}.
Arguments Next {St V}. Arguments Return {St V}. Arguments Raise {St V}.
Arguments SAssert {St V}. Arguments SString {St V}. Arguments SOther {St V}.
Arguments Func {St V}.
Arguments fn_name {St V}. Arguments fn_file {St V}. Arguments co_name {St V}.
Arguments co_file {St V}. Arguments first_line {St V}. Arguments is_def {St V}.
Arguments outer {St V}. Arguments body {St V}.
Arguments Returned {V}. Arguments Raised {V}.
Arguments stmt_line {St V}. Arguments frame_line {St V}.
Arguments get_first_body_line {St V}. Arguments scan {St V}.
Arguments check {St V}. Arguments judge {St V}. Arguments wrapped {St V}. Arguments exec {St V}.
Arguments traceback {St V}.
