(* What a user of the command line expects, stated without the model's functions. *)
From Coq Require Import ZArith List Bool.
From Verif Require Import Cli_Model.
Import ListNotations.
Local Open Scope Z_scope.

(** A counterexample: an input for which the function or its contract fails *)
Definition counterexample (m : message) : Prop :=
  mstate m = POST_ERR \/ mstate m = EXEC_ERR \/ mstate m = POST_FAIL.

(** A contract or a file that could not be understood *)
Definition unusable (m : message) : Prop :=
  mstate m = SYNTAX_ERR \/ mstate m = IMPORT_ERR.

Definition problem (m : message) : Prop := counterexample m \/ unusable m.

(** A dotted name denotes an object: its longest importable prefix, followed by attributes. *)
Inductive attribute_of : obj -> list Z -> obj -> Prop :=
| at_module : forall l n o, get_attr n l = Some o -> attribute_of (OModule l) [n] o
| at_class : forall l n o, get_attr n l = Some o -> attribute_of (OClass l) [n] o
| at_module_more : forall l n o m p r,
    n <> locals_name -> get_attr n l = Some o -> attribute_of o (m :: p) r ->
    attribute_of (OModule l) (n :: m :: p) r
| at_class_more : forall l n o m p r,
    n <> locals_name -> get_attr n l = Some o -> attribute_of o (m :: p) r ->
    attribute_of (OClass l) (n :: m :: p) r.

Definition denotes (import : list Z -> import_result) (parts : list Z) (o : obj) : Prop :=
  exists prefix rest m,
    parts = prefix ++ rest /\ prefix <> [] /\ import prefix = Imported m
    /\ (forall q r, parts = q ++ r -> (length prefix < length q)%nat -> import q = NoSuchModule)
    /\ ((rest = [] /\ o = m) \/ attribute_of m rest o).

(** The display: of the problems found since the files last changed, the first at each
    place, in the order in which they were found. *)
Inductive first_at_each_place : list message -> list message -> Prop :=
| fp_nil : first_at_each_place [] []
| fp_new : forall ms shown m,
    first_at_each_place ms shown ->
    (forall k, In k ms -> (mfile k, mline k) <> (mfile m, mline m)) ->
    first_at_each_place (ms ++ [m]) (shown ++ [m])
| fp_seen : forall ms shown m k,
    first_at_each_place ms shown -> In k ms -> (mfile k, mline k) = (mfile m, mline m) ->
    first_at_each_place (ms ++ [m]) shown.

Definition is_problem (m : message) : bool :=
  match mstate m with
  | POST_ERR | EXEC_ERR | POST_FAIL | SYNTAX_ERR | IMPORT_ERR => true
  | _ => false
  end.

(** all problems that some passes reported *)
Definition problems_in (passes : list (list batch)) : list message :=
  filter is_problem (flat_map bmsgs (concat passes)).

(** a pass during which a change of the files was noticed *)
Definition interrupted (pass : list batch) : bool := existsb bflag pass.
