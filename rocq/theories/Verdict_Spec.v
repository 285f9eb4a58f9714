(** What a verdict is supposed to mean, in terms of inputs and of what the
    contract and the body do on them; no search tree, no analysis records. *)
From Coq Require Import List Bool ZArith.
From Verif Require Import SearchTree_Model SearchTree_Spec Verdict_Model.
Import ListNotations.

Section Spec.
  Variables (Asg Expr VExpr Val : Type).
  Variable holds : Asg -> Expr -> bool.
  Variable veval : Asg -> VExpr -> Val.
  Variable code : list (ans Val) -> req Expr VExpr + path.

  (** The answers [h] are those the input [a] dictates. *)
  Definition Given (a : Asg) (h : list (ans Val)) : Prop :=
    Agrees Asg Expr VExpr Val holds veval
      (fun h => match code h with inl q => act q | inr _ => ADone A_unknown end) a h.

  (** Run on the input [a], having received the answers [h], the code finishes as
      [p] (or, [None], turns out to be given an input excluded by an assumption). *)
  Inductive Does (a : Asg) : list (ans Val) -> option path -> Prop :=
  | Do_end h p : code h = inr p -> Does a h (Some p)
  | Do_fork h e o : code h = inl (QFork e) -> Does a (ABool (holds a e) :: h) o -> Does a h o
  | Do_real h x o : code h = inl (QRealize x) -> Does a (AVal (veval a x) :: h) o -> Does a h o
  | Do_assume h e o : code h = inl (QAssume e) -> holds a e = true ->
                      Does a (AUnit :: h) o -> Does a h o
  | Do_excl h e : code h = inl (QAssume e) -> holds a e = false -> Does a h None
  | Do_par h b o : code h = inl QPar -> Does a (ABool b :: h) o -> Does a h o
  | Do_poss h e b o : code h = inl (QPossible e) ->
                      (b = true <-> exists a', Given a' h /\ holds a' e = true) ->
                      Does a (ABool b :: h) o -> Does a h o.

  (** Assumptions the code adds are satisfiable where it adds them. *)
  Definition assumes_well : Prop :=
    forall a h e, Given a h -> code h = inl (QAssume e) ->
      exists a', Given a' h /\ holds a' e = true.
  (** The code never asks for two alternative ways to run. *)
  Definition no_alternatives : Prop := forall h, code h <> inl QPar.

  (** Every precondition that could be compiled holds. *)
  Definition pre_met (p : path) : Prop :=
    forall line o, In (line, Some o) (p_pres p) -> o = EvTrue.

  (** The ways to violate a contract whose preconditions were met: an exception
      that is not declared, a forbidden mutation, a postcondition that raises or
      is false.  The kind of the message that ought to be shown is given too. *)
  Inductive violates (p : path) : Z -> Prop :=
  | V_exec : p_body p = Some XUser -> violates p msg_exec_err
  | V_mut : p_body p = None -> p_mutated p = true -> violates p msg_post_err
  | V_posterr : p_body p = None -> p_mutated p = false -> p_post p = EvRaise XUser ->
                violates p msg_post_err
  | V_post : p_body p = None -> p_mutated p = false -> p_post p = EvFalse ->
             violates p msg_post_fail.

  (** A counterexample: legal (deferred assumptions hold), preconditions met. *)
  Definition counterexample (p : path) (m : Z) : Prop :=
    pre_met p /\ p_deferred p = true /\ violates p m.

  (** The postcondition was seen to hold, or a declared exception was raised. *)
  Definition satisfied (p : path) : Prop :=
    pre_met p /\
    (p_body p = Some XExpected \/
     p_body p = None /\ p_mutated p = false /\
     (p_post p = EvTrue \/ p_post p = EvRaise XExpected)).
End Spec.
