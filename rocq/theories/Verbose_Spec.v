(** What a report of a problem should show. *)
From Coq Require Import String List Bool Ascii Arith.
From Verif Require Import Cli_Model.
Import ListNotations.
Open Scope string_scope.
Open Scope list_scope.
Open Scope nat_scope.

(** Counterexamples, errors and conditions that could not be read are problems. *)
Definition is_problem_state (t : mtype) : bool :=
  match t with
  | CONFIRMED | CANNOT_CONFIRM | PRE_UNSAT => false
  | POST_ERR | EXEC_ERR | POST_FAIL | SYNTAX_ERR | IMPORT_ERR => true
  end.

(** The lines of a file with their numbers, and those near a given one. *)
Definition numbered (file : list string) : list (nat * string) :=
  combine (seq 1 (length file)) file.
Definition near (l : nat) (p : nat * string) : bool :=
  (fst p <=? l + 3) && (l <=? fst p + 3).

(** One text differs from another only by line breaks in place of spaces, each before
    the word "when" and a space. *)
Inductive rebroken : string -> string -> Prop :=
| rb_nil : rebroken "" ""
| rb_same : forall c s t, rebroken s t -> rebroken (String c s) (String c t)
| rb_when : forall s t, rebroken s t ->
    rebroken (" when " ++ s)%string
      (String (ascii_of_nat 10) ("when " ++ t))%string.

Definition occurs (p s : string) : Prop := exists a b, s = (a ++ p ++ b)%string.
