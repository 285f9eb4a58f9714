(** The functions of a module, by the names that lead to them, and their lines. *)
From Coq Require Import ZArith List Bool.
From Verif Require Import Py LineFind_Model.
Import ListNotations.
Open Scope Z_scope.

(** A line of a function: the first of them is [start], and there are [len] *)
Definition on_line (start len line : Z) : Prop := start <= line < start + len.
(** [p] leads from a member to a function or classmethod that is defined in the module *)
Inductive leads : member -> list Z -> Z -> Z -> Prop :=
| leads_fn : forall s l, leads (Fn true s l) [] s l
| leads_bound : forall s l, leads (Bound true s l) [] s l
| leads_cls : forall ms n own m p s l, In (n, own, m) ms -> leads m p s l -> leads (Cls true ms) (n :: p) s l.
(** No inherited functions and no classmethods *)
Inductive plain : bool -> member -> Prop :=
| plain_fn : forall here s l, plain true (Fn here s l)
| plain_cls : forall own here ms, (forall n o m, In (n, o, m) ms -> plain o m) -> plain own (Cls here ms)
| plain_other : forall own, plain own Other.
