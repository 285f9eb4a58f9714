(** What icontract itself checks (icontract._checkers: _assert_preconditions, _capture_old, _assert_postconditions,
    _assert_invariant, resolve_kwargs). *)
From Coq Require Import List Bool String.
From Verif Require Import Py Icontract_Model.
Import ListNotations.

Section Spec.
Variables V store : Type.
Notation lambda := (lambda V store).
(** a condition gets the values of its parameters *)
Definition apply {R} (f : lambda R) (s : store) (e : string -> option V) : res R :=
  if forallb (fun n => match e n with Some _ => true | None => false end) (mandatory f)
  then run f s (map e (params f)) else Err TypeError.
(** the arguments of the call, _ARGS and _KWARGS *)
Definition resolved (args : string -> option V) (pos kw : V) : string -> option V :=
  fun n => if String.eqb n "_ARGS" then Some pos else if String.eqb n "_KWARGS" then Some kw else args n.
(** every condition of a group holds: the first failure or error decides *)
Inductive group_result (s : store) (e : string -> option V) : list (lambda bool) -> res bool -> Prop :=
| GDone : group_result s e [] (Ok true)
| GFalse : forall c l, apply c s e = Ok false -> group_result s e (c :: l) (Ok false)
| GErr : forall c l x, apply c s e = Err x -> group_result s e (c :: l) (Err x)
| GNext : forall c l r, apply c s e = Ok true -> group_result s e l r -> group_result s e (c :: l) r.
(** the first group that holds, or an error before it *)
Inductive groups_result (s : store) (e : string -> option V) : list (list (lambda bool)) -> res bool -> Prop :=
| DHold : forall g l, group_result s e g (Ok true) -> groups_result s e (g :: l) (Ok true)
| DErr : forall g l x, group_result s e g (Err x) -> groups_result s e (g :: l) (Err x)
| DLast : forall g, group_result s e g (Ok false) -> groups_result s e [g] (Ok false)
| DNext : forall g l r, group_result s e g (Ok false) -> l <> [] -> groups_result s e l r -> groups_result s e (g :: l) r.
Definition icontract_pre (c : checker V store) (s : store) (e : string -> option V) (r : res bool) : Prop :=
  (groups c = [] /\ r = Ok true) \/ groups_result s e (groups c) r.
(** OLD is captured before the body runs *)
Inductive captured (s : store) (e : string -> option V) : list (string * lambda V) -> res (list (string * V)) -> Prop :=
| CNil : captured s e [] (Ok [])
| CErr : forall n f l x, apply f s e = Err x -> captured s e ((n, f) :: l) (Err x)
| CErrNext : forall n f l v x, apply f s e = Ok v -> captured s e l (Err x) -> captured s e ((n, f) :: l) (Err x)
| CCons : forall n f l v r, apply f s e = Ok v -> captured s e l (Ok r) -> captured s e ((n, f) :: l) (Ok ((n, v) :: r)).
Definition with_result (e : string -> option V) (old ret : V) : string -> option V :=
  fun n => if String.eqb n "result" then Some ret else if String.eqb n "OLD" then Some old else e n.
(** an invariant takes self or nothing *)
Definition icontract_invariant (k : lambda bool) (s : store) (self : V) : res bool :=
  if existsb (String.eqb "self") (params k) then run k s (map (fun n => if String.eqb n "self" then Some self else None) (params k))
  else run k s [].
End Spec.
Arguments apply {V store R}.
