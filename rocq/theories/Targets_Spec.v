(* Which checks a user expects. *)
From Coq Require Import String.
From Coq Require Import List Bool.
From Verif Require Import Targets_Model.
Import ListNotations.

(** What counts: the caller's choice, else the function's own directive, else the default. *)
Definition enabled_for (m : member) (o : opts) : Prop :=
  o_enabled o = Some true \/
  (o_enabled o = None /\ (m_callable m = false \/ o_enabled (m_opts m) <> Some false)).
Definition kinds_for (default_kinds : kinds) (m : member) (o : opts) (ks : kinds) : Prop :=
  match o_kinds o with
  | Some k => ks = k
  | None => match m_callable m, o_kinds (m_opts m) with true, Some k => ks = k | _, _ => ks = default_kinds end
  end.
(** Nothing is wrong with the conditions' text. *)
Definition well_formed (c : conds) : Prop :=
  c_messages c = [] /\ forall q, In q (c_pre c) \/ In q (c_post c) -> c_compiles q = true.
(** Each problem is named. *)
Definition is_problem (c : conds) (i : nat) : Prop :=
  In i (c_messages c) \/ exists q, (In q (c_pre c) \/ In q (c_post c)) /\ c_compiles q = false /\ c_id q = i.

(** A method that has a body which can be run: not abstract, and in an abstract class only when it
    needs no instance. *)
Definition runnable (abstract : bool) (m : member) : Prop :=
  m_abstract m = false /\ (abstract = false \/ m_desc m = DStatic \/ m_desc m = DClass).
