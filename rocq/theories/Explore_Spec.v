(** What it means for a path to belong to an input, for two functions to behave alike,
    and for what was recorded about a path to be right. *)
From Coq Require Import List Bool ZArith.
From Verif Require Import SearchTree_Model Verdict_Model Explore_Model.
Import ListNotations.

Section Spec.
  Variables (Asg Expr VExpr Val P : Type).
  Variable holds : Asg -> Expr -> bool.
  Variable veval : Asg -> VExpr -> Val.
  Variable code : list (ans Val) -> req Expr VExpr + P.

  (** The answers [h] are those the input [a] dictates. *)
  Fixpoint Given (a : Asg) (h : list (ans Val)) : Prop :=
    match h with
    | [] => True
    | x :: t =>
        Given a t /\
        match code t with
        | inl (QFork e) => x = ABool (holds a e)
        | inl (QRealize y) => x = AVal (veval a y)
        | inl (QAssume e) => holds a e = true
        | _ => True
        end
    end.

  (** The code finds out, by an assumption it adds, that [a] is not a legal input. *)
  Definition Excluded (a : Asg) : Prop :=
    exists h e, Given a h /\ code h = inl (QAssume e) /\ holds a e = false.

  (** Assumptions are satisfiable where they are added. *)
  Definition assumes_well : Prop :=
    forall a h e, Given a h -> code h = inl (QAssume e) ->
      exists a', Given a' h /\ holds a' e = true.
  (** The code never asks for two alternative ways to run. *)
  Definition no_alternatives : Prop := forall h, code h <> inl QPar.
End Spec.

(** *** Behaviours *)
Section Behaviours.
  (** Values, arguments and exceptions are abstract; "alike" is what flexible_equal
      computes (see FlexEq_Spec for what that is). *)
  Variables (Value Exc : Type).
  Variable alike : Value -> Value -> bool.
  Variable same_type same_repr : Exc -> Exc -> bool.

  (** What a call does: the value returned (None if it raised), the exception, and the
      arguments afterwards. *)
  Record behaviour := mkB { b_ret : Value; b_exc : option Exc; b_args : Value }.

  Definition exc_alike (k : exc_kind) (x y : Exc) : bool :=
    match k with KAll => true | KSameType => same_type x y | KTypeAndMessage => same_repr x y end.

  Definition b_alike (k : exc_kind) (b c : behaviour) : bool :=
    alike (b_ret b) (b_ret c) && alike (b_args b) (b_args c) &&
    match b_exc b, b_exc c with
    | None, None => true
    | Some x, Some y => exc_alike k x y
    | _, _ => false
    end.

  (** The record of a path says the truth about the behaviours [b1] and [b2] of the two
      functions on an input; [None]: the function has no behaviour on that input,
      which turns out not to be a legal one.  Comparisons may be left open ([None]:
      they raised an exception). *)
  Definition exc_of (b : option behaviour) : excn :=
    match b with
    | None => XIgnored
    | Some b => match b_exc b with None => XNone | Some _ => XRaised end
    end.
  Definition reflects (p : dpath) (b1 b2 : option behaviour) : Prop :=
    d_exc1 p = exc_of b1 /\ d_exc2 p = exc_of b2 /\
    match b1, b2 with
    | Some b1, Some b2 =>
        (forall r, d_rets p = Some r -> r = alike (b_ret b1) (b_ret b2)) /\
        (forall r, d_args p = Some r -> r = alike (b_args b1) (b_args b2)) /\
        match b_exc b1, b_exc b2 with
        | Some x, Some y => d_same_type p = same_type x y /\ d_same_repr p = same_repr x y
        | _, _ => True
        end
    | None, None => d_same_type p = true /\ d_same_repr p = true   (* twice IgnoreAttempt() *)
    | _, _ => d_same_type p = false /\ d_same_repr p = false
    end.
End Behaviours.
