(** What the status of a path search is supposed to mean.  Nothing here mentions
    the search tree. *)
From Coq Require Import List Bool ZArith.
From Verif Require Import SearchTree_Model.
Import ListNotations.

Section Spec.
  Variables (Asg Expr VExpr Val : Type).
  (** Value of expressions under an assignment of the symbolic inputs. *)
  Variable holds : Asg -> Expr -> bool.
  Variable veval : Asg -> VExpr -> Val.
  Variable prog : list (ans Val) -> action Expr VExpr.

  (** The answers in [h] (most recent first) are those assignment [a] dictates. *)
  Fixpoint Agrees (a : Asg) (h : list (ans Val)) : Prop :=
    match h with
    | [] => True
    | x :: t =>
        Agrees a t /\
        match prog t with
        | AFork e => x = ABool (holds a e)
        | ARealize y => x = AVal (veval a y)
        | AAssume e => holds a e = true
        | _ => True
        end
    end.

  Inductive outcome := Excluded | Ended (r : analysis).

  (** [Runs a h o]: having received the answers [h], the program run under the
      assignment [a] ends with [o].  [Excluded]: [a] violates an assumption the
      program added to the path (StateSpace.add), so [a] is no legal input.  A
      parallel fork may go either way. *)
  Inductive Runs (a : Asg) : list (ans Val) -> outcome -> Prop :=
  | R_done h r : prog h = ADone r -> Runs a h (Ended r)
  | R_fork h e o : prog h = AFork e -> Runs a (ABool (holds a e) :: h) o -> Runs a h o
  | R_real h x o : prog h = ARealize x -> Runs a (AVal (veval a x) :: h) o -> Runs a h o
  | R_assume h e o : prog h = AAssume e -> holds a e = true ->
                     Runs a (AUnit :: h) o -> Runs a h o
  | R_excl h e : prog h = AAssume e -> holds a e = false -> Runs a h Excluded
  | R_par h b o : prog h = APar -> Runs a (ABool b :: h) o -> Runs a h o
  | R_poss h e b o : prog h = APossible e ->
                     (b = true <-> exists a', Agrees a' h /\ holds a' e = true) ->
                     Runs a (ABool b :: h) o -> Runs a h o
  | R_detach h o : prog h = ADetach -> Runs a (AUnit :: h) o -> Runs a h o.

  (** Outcomes that do not contradict the condition being checked: the path is
      confirmed, is ignored, or is outside the legal inputs. *)
  Definition good_status (s : option status) : Prop := s = None \/ s = Some Confirmed.
  Definition fine (o : outcome) : Prop :=
    match o with Excluded => True | Ended r => good_status (a_status r) end.
  Definition refuting (o : outcome) : Prop :=
    match o with Excluded => False | Ended r => a_status r = Some Refuted end.

  Definition Safe (a : Asg) (h : list (ans Val)) : Prop := exists o, Runs a h o /\ fine o.

  Definition lit_holds (a : Asg) (l : lit Expr VExpr Val) : Prop :=
    match l with
    | LExpr e b => holds a e = b
    | LVal x v b => if b then veval a x = v else veval a x <> v
    end.
  Definition models (pc : list (lit Expr VExpr Val)) (a : Asg) : Prop :=
    Forall (lit_holds a) pc.

  (** The solver never lies (but may say "unknown"). *)
  Record truthful (E : env Expr VExpr Val) : Prop := {
    t_unsat : forall pc, e_sat E pc = Unsat -> forall a, ~ models pc a;
    t_sat : forall pc, e_sat E pc = Sat -> exists a, models pc a;
    t_model : forall pc x, e_sat E pc = Sat ->
                           exists a, models pc a /\ veval a x = e_model E pc x }.

  (** A program that detaches a path either ends right away, or never ends
      confirmed or ignored afterwards (core.py attempt_call detaches only before
      reporting a failure; detach_path before raising IgnoreAttempt). *)
  Definition detach_ok : Prop :=
    forall h, prog h = ADetach ->
      (exists r, prog (AUnit :: h) = ADone r) \/
      (forall l r, prog (l ++ AUnit :: h) = ADone r -> ~ good_status (a_status r)).

  (** Assumptions a program adds are satisfiable where it adds them. *)
  Definition assume_ok : Prop :=
    forall a h e, Agrees a h -> prog h = AAssume e ->
      exists a', Agrees a' h /\ holds a' e = true.

  (** No parallel forks: the outcome of a run is then determined. *)
  Definition no_par : Prop := forall h, prog h <> APar.
End Spec.

(** Vocabulary about search trees used in the statements. *)
Section TreeSpec.
  Variables (Expr VExpr Val : Type).
  Notation node := (node Expr VExpr Val).

  (** A reachable position below [n] is still unexplored, or was left without a
      verdict.  A parallel fork is open only if both sides are. *)
  Fixpoint is_open (n : node) : bool :=
    match n with
    | Stem => true
    | Leaf r => status_eqb (a_status r) (Some Unknown)
    | Worst _ f p q _ _ =>
        match f with
        | None => is_open p || is_open q
        | Some true => is_open p
        | Some false => is_open q
        end
    | Par p q _ _ => is_open p && is_open q
    | Detached _ r _ => status_eqb (a_status r) (Some Unknown)
    end.

  (** [P] holds at every position of the tree. *)
  Fixpoint AllPos (P : node -> Prop) (n : node) : Prop :=
    P n /\
    match n with
    | Worst _ _ p q _ _ | Par p q _ _ => AllPos P p /\ AllPos P q
    | Detached c _ _ => AllPos P c
    | _ => True
    end.

  (** [n'] may differ from [n] only where [n] was not exhausted. *)
  Fixpoint frozen (n n' : node) : Prop :=
    if n_exh n then n' = n
    else match n, n' with
         | Stem, _ => True
         | Worst k f p q _ _, Worst k' f' p' q' _ _ =>
             k' = k /\ f' = f /\ frozen p p' /\ frozen q q'
         | Par p q _ _, Par p' q' _ _ => frozen p p' /\ frozen q q'
         | _, _ => False
         end.
End TreeSpec.
Arguments is_open {_ _ _}.
Arguments AllPos {_ _ _}.
Arguments frozen {_ _ _}.

(** Programs of bounded decision depth (without realization). *)
Section Depth.
  Variables (Expr VExpr Val : Type).
  Variable prog : list (ans Val) -> action Expr VExpr.
  Inductive Depth : nat -> list (ans Val) -> Prop :=
  | D_done d h r : prog h = ADone r -> Depth d h
  | D_bool d h : (exists e, prog h = AFork e) \/ prog h = APar \/ (exists e, prog h = APossible e) ->
      (forall b, Depth d (ABool b :: h)) -> Depth (S d) h
  | D_unit d h : (exists e, prog h = AAssume e) \/ prog h = ADetach ->
      Depth d (AUnit :: h) -> Depth (S d) h.
End Depth.
