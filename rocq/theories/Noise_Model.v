(** Model of core.py 183-277: ExceptionFilter, and suspected_proxy_intolerance_exception,
    which tells errors of the checked program from errors that arise because some
    function cannot deal with a symbolic value. *)
From Coq Require Import String Ascii List Bool.
Import ListNotations.
Open Scope string_scope.

(** "sub in s" on strings. *)
Fixpoint starts (sub s : string) : bool :=
  match sub, s with
  | "", _ => true
  | String a sub', String b s' => Ascii.eqb a b && starts sub' s'
  | String _ _, "" => false
  end.
Fixpoint contains (sub s : string) : bool :=
  starts sub s || match s with "" => false | String _ s' => contains sub s' end.

(** What the filter can see of an exception. *)
Record raised := mkRaised {
  is_postcondition_failed : bool;
  is_ignore_attempt : bool;
  is_expected : bool;           (* isinstance(exc_value, self.expected_exceptions) *)
  is_type_error : bool;
  is_exception : bool;          (* Exception or PreconditionFailed *)
  is_engine : bool;             (* Z3Exception or NotDeterministic *)
  text : string }.              (* str(exc_value) *)

(** suspected_proxy_intolerance_exception, 183-216. *)
Definition suspected (e : raised) : bool :=
  if negb (is_type_error e) then false
  else
    let exc_str := text e in
    let atomic_symbolic := contains "SymbolicInt" exc_str || contains "SymbolicFloat" exc_str in
    if atomic_symbolic || contains "SymbolicStr" exc_str || contains "SymbolicBytes" exc_str
       || contains "__hash__ method should return an integer" exc_str
       || contains "expected string or bytes-like object" exc_str
    then
      if contains "can only concatenate" exc_str || contains "NoneType" exc_str
         || contains "object is not callable" exc_str
      then false
      else if atomic_symbolic && contains "object is not iterable" exc_str then false
      else true
    else false.

(** ExceptionFilter.__exit__, 238-277: what becomes of a path. *)
Inductive outcome :=
| PathIgnored          (* CallAnalysis(): as if there was no such path *)
| PathConfirmed        (* CallAnalysis(CONFIRMED) *)
| PathUnsupported      (* CrosshairUnsupported is raised: the path counts as unexplored *)
| Reraised             (* return False *)
| UserError.           (* user_exc is set, CallAnalysis(REFUTED) *)

Definition on_exit (e : raised) : outcome :=
  if is_postcondition_failed e || is_ignore_attempt e then PathIgnored
  else if is_expected e then PathConfirmed
  else if suspected e then PathUnsupported
  else if is_exception e then (if is_engine e then Reraised else UserError)
  else Reraised.
