(* Which signatures a call fits, by Python's rules for calls and the types of its arguments. *)
From Coq Require Import String.
From Coq Require Import List Bool Arith.
From Verif Require Import Py Unify_Model Unify_Spec Repr_Model Repr_Spec Overload_Model.
Import ListNotations.

Section Fits.
  Variable issub : nat -> nat -> bool.

  (** [b] is what the type variables stand for *)
  Definition arg_fits (b : binds) (p : oparam) (v : nat) : Prop :=
    match o_ann p with None => True | Some t => sub issub (App v []) (subst b t) end.
  Definition bound_fits (b : binds) (p : oparam) (x : option (bound nat)) : Prop :=
    match x with
    | Some (One v) => arg_fits b p v
    | Some (Many l) => Forall (arg_fits b p) l
    | Some (Named l) => Forall (fun kv => arg_fits b p (snd kv)) l
    | None => True
    end.
  Definition call_fits (ps : list oparam) (a : list nat) (kw : list (string * nat)) : Prop :=
    exists bs b, take_args (map o_param ps) a kw = Some bs /\ Forall2 (bound_fits b) ps bs.
  (** the first one of several, or none *)
  Definition first_fitting (sigs : list (list oparam)) (a : list nat) (kw : list (string * nat)) (o : option nat) : Prop :=
    match o with
    | Some i => (exists ps, nth_error sigs i = Some ps /\ call_fits ps a kw) /\
                forall j ps, j < i -> nth_error sigs j = Some ps -> ~ call_fits ps a kw
    | None => forall ps, In ps sigs -> ~ call_fits ps a kw
    end.
End Fits.

(** no *args and **kwargs, a type on every parameter *)
Definition plain_sig (ps : list oparam) : Prop :=
  Forall (fun p => p_kind (o_param p) <> VarPos /\ p_kind (o_param p) <> VarKw /\ o_ann p <> None) ps.
(** the types are classes without arguments, other than object, tuple and Callable, or Any *)
Definition class_sig (ps : list oparam) : Prop :=
  Forall (fun p => o_ann p = Some Any \/ exists c, o_ann p = Some (App c []) /\ 2 < c) ps.
