(** Model of loading the files named on the command line: util.py add_to_pypath 329-336,
    import_module 347-354, load_file 357-368 and extract_module_from_file 588-599, and what
    importlib.import_module does with sys.modules and the first directory of sys.path.

    Modules built into Python and the rest of sys.path are not looked at: what they may give
    is taken to be in sys.modules.

    A path is the list of its components, the last one first; the component 0 is "__init__".
    A module is at the path of its directory if it is a package, and else at that of its file
    without ".py". *)
From Coq Require Import ZArith List Bool.
Import ListNotations.
Open Scope Z_scope.

Definition path := list Z.
Definition init : Z := 0.
(** sys.modules: the names of modules and where they come from *)
Definition modules := list (list Z * path).

Section Files.
(** Whether a directory has an __init__.py; whether there is a module at a path; the real path
    of a file (os.path.realpath, 593) *)
Variable has_init : path -> bool.
Variable found : path -> bool.
Variable real_path : path -> path.

(** 594-596; a file __init__.py in "/" is not modelled *)
Fixpoint climb (p : path) (dirs : list Z) : path * list Z :=
  match p with
  | [] => ([], dirs)
  | c :: parent => if has_init p then climb parent (c :: dirs) else (p, dirs)
  end.
(** 588-599 of a file stem.py *)
Definition extract_module (file : path) : path * list Z :=
  match file with
  | [] => ([], [])
  | stem :: _ => climb (tl (real_path file)) (if stem =? init then [] else [stem])
  end.

(** Equality of names *)
Fixpoint name_eqb (a b : list Z) : bool :=
  match a, b with [], [] => true | x :: a, y :: b => (x =? y) && name_eqb a b | _, _ => false end.
(** Looking up a name in sys.modules *)
Fixpoint cached (ms : modules) (n : list Z) : option path :=
  match ms with [] => None | (k, p) :: ms => if name_eqb k n then Some p else cached ms n end.
(** importlib: each package of the name in turn, those in sys.modules not looked for again *)
Fixpoint import_from (ms : modules) (done : list Z) (at_ : path) (rest : list Z) : option (path * modules) :=
  match rest with
  | [] => Some (at_, ms)
  | c :: rest =>
      let n := done ++ [c] in
      match cached ms n with
      | Some p => import_from ms n p rest
      | None => if found (c :: at_) then import_from ((n, c :: at_) :: ms) n (c :: at_) rest else None
      end
  end.
(** 357-368; None is an ErrorDuringImport *)
Definition load_file (ms : modules) (file : path) : option (path * modules) :=
  let (root, name) := extract_module file in
  match name with [] => None | _ => import_from ms [] root name end.
(** fnutil.py 376-377: one file after the other *)
Fixpoint load_files (ms : modules) (files : list path) : option (list path) :=
  match files with
  | [] => Some []
  | f :: files =>
      match load_file ms f with
      | None => None
      | Some (p, ms) => match load_files ms files with None => None | Some ps => Some (p :: ps) end
      end
  end.
End Files.
