(** Where the module of a file is. *)
From Coq Require Import ZArith List Bool.
From Verif Require Import LoadFile_Model.
Import ListNotations.
Open Scope Z_scope.

(** a/b/c.py is the module a/b/c; a/b/__init__.py is the package a/b *)
Definition place (file : path) : path := match file with 0 :: dir => dir | _ => file end.
(** A file in a project: [names] are the packages from the project's directory [root] to the
    module; each has an __init__.py, and [root] has none. *)
Definition in_project (has_init : path -> bool) (root : path) (file : path) (names : list Z) : Prop :=
  place file = rev names ++ root /\ names <> [] /\ has_init root = false /\
  forall before c after, names = before ++ c :: after ->
    (after <> [] \/ hd 1 file = 0) -> has_init (c :: rev before ++ root) = true.
