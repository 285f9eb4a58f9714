(** What names mean in a Python file that has some import statements, then definitions of functions,
    and whose functions are called when all of it has been run. *)
From Coq Require Import String List Bool.
From Verif Require Import TestRefs_Model.
Import ListNotations.
Open Scope string_scope.

Section Python.
(** The names in the module builtins *)
Variable builtin : string -> bool.
Inductive thing := Named (m n : string) | Module (n : string) | Test (n : string).
(** The global names after the statements, the later ones over the earlier ones *)
Fixpoint bound (l : list stmt) (n : string) (d : option thing) : option thing :=
  match l with
  | [] => d
  | From m x :: l => bound l n (if String.eqb x n then Some (Named m x) else d)
  | Import x :: l => bound l n (if String.eqb x n then Some (Module x) else d)
  end.
Definition global (imports : list stmt) (tests : list string) (n : string) : option thing :=
  if existsb (String.eqb n) tests then Some (Test n) else bound imports n None.
(** The object a dotted name stands for; None: NameError, or no name at all *)
Definition means (imports : list stmt) (tests : list string) (q : list string) : option ref :=
  match q with
  | [] => None
  | p :: r =>
      if existsb (String.eqb "<locals>") q then None
      else match global imports tests p with
           | Some (Named m x) => Some (Ref m (x :: r))
           | Some (Module x) => Some (Ref x r)
           | Some (Test _) => None
           | None => if builtin p then Some (Ref "builtins" q) else None
           end
  end.
End Python.
