(** Python's ==, and when two results should pass for the same. *)
From Coq Require Import List Bool ZArith.
From Verif Require Import FlexEq_Model.
Import ListNotations.
Open Scope Z_scope.

(** The key of a dictionary is there once. *)
Definition keys (l : list (Z * val)) : list Z := map fst l.

(** Python's [a == b].  Items of containers are compared with "is" first. *)
Inductive PyEq : val -> val -> Prop :=
| pe_num x : PyEq (VNum x) (VNum x)
| pe_str s : PyEq (VStr s) (VStr s)
| pe_obj t i : PyEq (VObj t i) (VObj t i)
| pe_unreal : PyEq VUnreal VUnreal
| pe_iter t i l : PyEq (VIter t i l) (VIter t i l)
| pe_set l m : (forall x, In x l <-> In x m) -> PyEq (VSet l) (VSet m)
| pe_seq t l m : Forall2 PyEqIs l m -> PyEq (VSeq t l) (VSeq t m)
| pe_dict l m :
    (forall k, In k (keys l) <-> In k (keys m)) ->
    (forall k v w, In (k, v) l -> In (k, w) m -> PyEqIs v w) ->
    PyEq (VDict l) (VDict m)
with PyEqIs : val -> val -> Prop :=
| pi_nan i : PyEqIs (VNan i) (VNan i)
| pi_eq v w : PyEq v w -> PyEqIs v w.

(** Two results pass for the same: as ==, but NaN is like NaN, things that could not be
    realized are like anything, objects that know no equality are like any other of their
    type, and iterators are alike if they give alike items. *)
Inductive Alike : val -> val -> Prop :=
| al_unreal1 v : Alike VUnreal v
| al_unreal2 v : Alike v VUnreal
| al_nan i j : Alike (VNan i) (VNan j)
| al_obj t i j : Alike (VObj t i) (VObj t j)
| al_num x : Alike (VNum x) (VNum x)
| al_str s : Alike (VStr s) (VStr s)
| al_set l m : (forall x, In x l <-> In x m) -> Alike (VSet l) (VSet m)
| al_seq t l m : Forall2 Alike l m -> Alike (VSeq t l) (VSeq t m)
| al_iter t u i j l m : Forall2 Alike l m -> Alike (VIter t i l) (VIter u j m)
| al_dict l m :
    (forall k, In k (keys l) <-> In k (keys m)) ->
    (forall k v w, In (k, v) l -> In (k, w) m -> Alike v w) ->
    Alike (VDict l) (VDict m).

(** Every part of a value has [Q] *)
Fixpoint Every (Q : val -> Prop) (v : val) : Prop :=
  Q v /\
  match v with
  | VSeq _ l | VIter _ _ l =>
      (fix all (l : list val) : Prop := match l with [] => True | x :: r => Every Q x /\ all r end) l
  | VDict l =>
      (fix all (l : list (Z * val)) : Prop := match l with [] => True | (_, x) :: r => Every Q x /\ all r end) l
  | _ => True
  end.

(** A dictionary has each of its keys once. *)
Definition wf1 (v : val) : Prop := match v with VDict l => NoDup (keys l) | _ => True end.
Definition wf := Every wf1.
(** nothing that could not be realized *)
Definition realized := Every (fun v => v <> VUnreal).
Definition no_iterators := Every (fun v => forall t i l, v <> VIter t i l).
(** made of numbers, strings and containers only *)
Definition plain := Every (fun v =>
  match v with VNan _ | VObj _ _ | VUnreal | VIter _ _ _ => False | _ => True end).
