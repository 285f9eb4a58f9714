(** Model of the names in generated tests: crosshair/path_cover.py 169-179
    (import_statements_for_references) and 182-209 (output_pytest_paths), main.py 777-785 (the file
    that is written), and util.py 116-117 (name_of_type), 453-463 and 536-559 (what references are
    printed as).

    A qualified name is the list of its parts.  An object is known by its module and its qualified
    name.  The order in which the import statements are sorted is a parameter, of which the theorems
    use only that it keeps the statements. *)
From Coq Require Import String List Bool.
From Verif Require Import Pytest_Model.
Import ListNotations.
Open Scope string_scope.

(** util.py 442-444 ReferencedIdentifier *)
Record ref := Ref { modulename : string; qualname : list string }.
(** What a path of a function has that is printed: the references in its arguments and its result,
    and the class of the exception *)
Record path := Path { references : list ref; exc : option ref }.
Record cover := Cover { fn : ref; paths : list path }.

Definition head (q : list string) : string := match q with p :: _ => p | [] => "" end.
Fixpoint dotted (q : list string) : string :=
  match q with [] => "" | [p] => p | p :: r => p ++ "." ++ dotted r end.
Inductive stmt := From (m n : string) | Import (n : string).

(** 169-179 import_statements_for_references *)
Definition import_statement (r : ref) : list stmt :=
  if String.eqb (modulename r) "builtins" then []
  else match qualname r with
       | class_name :: _ :: _ => [From (modulename r) class_name]
       | q => [From (modulename r) (head q)]
       end.
Definition import_statements (rs : list ref) : list stmt := flat_map import_statement rs.
Definition raises (p : path) : bool := match exc p with Some _ => true | None => false end.
(** 187, 207-208: the references of the function and its paths; 198: pytest for an exception *)
Definition imports_of (c : cover) : list stmt :=
  (if existsb raises (paths c) then [Import "pytest"] else []) ++
  import_statements (fn c :: flat_map references (paths c)).
(** The names the tests have, 190-194 *)
Definition tests_of (c : cover) : list string := test_names (dotted (qualname (fn c))) (length (paths c)).

(** What a printed name is, and what it stands for.  util.py 557-559: a reference is printed as its
    qualified name.  193: the function.  117, 201, 204: an exception by its __name__, the last part *)
Definition name_of_type (r : ref) : list string := [last (qualname r) ""].
Definition printed (c : cover) : list (list string * ref) :=
  flat_map (fun p => (qualname (fn c), fn c) :: map (fun r => (qualname r, r)) (references p) ++
                     match exc p with
                     | Some e => [(name_of_type e, e); (["pytest"; "raises"], Ref "pytest" ["raises"])]
                     | None => []
                     end) (paths c).

(** main.py 777-785: the file has the sorted imports of all functions, then all the tests *)
Section File.
Variable sorted : list stmt -> list stmt.
Definition file_imports (cs : list cover) : list stmt := sorted (flat_map imports_of cs).
Definition file_tests (cs : list cover) : list string := flat_map tests_of cs.
Definition file_printed (cs : list cover) : list (list string * ref) := flat_map printed cs.
End File.
