(** Model of the path explorations that do not check contracts:
    crosshair/core.py explore_paths (used by "crosshair cover" and "crosshair
    search") and crosshair/diff_behavior.py diff_behavior_with_signature,
    run_iteration, describe_behavior (used by "crosshair diffbehavior").

    Simplifications:
    - The code under analysis is [code]: given the answers received so far, it asks
      the engine something ([inl], see Verdict_Model) or is finished with a record
      saying what happened on the path ([inr]).
    - What follows detach_path (realizing the values to be shown) asks the solver
      only about the inputs of the finished path; it is not modelled as requests.
      If it is cut short, the path is cut short ([e_abort] of SearchTree_Model). *)
From Coq Require Import List Bool ZArith.
From Verif Require Import SearchTree_Model Verdict_Model.
Import ListNotations.

Section Explore.
  Variables (Expr VExpr Val P : Type).
  Variable expr_eqb : Expr -> Expr -> bool.
  Notation hist := (list (ans Val)).
  Variable code : hist -> req Expr VExpr + P.
  (** The analysis handed to bubble_status for a finished path. *)
  Variable judge : P -> analysis.

  Definition prog (h : hist) : action Expr VExpr :=
    match code h with inl q => act q | inr p => ADone (judge p) end.

  Notation node := (node Expr VExpr Val).
  Notation env := (env Expr VExpr Val).

  (** A path that was tried: the answers it got and how it ended. *)
  Definition tried : Type := (hist * analysis)%type.

  (** The loops of core.py 1425-1490 and diff_behavior.py 190-238: paths tried, oldest
      first, and the tree.  Stopping for lack of time or of interest, because
      on_path_complete said so, or for the limit on iterations is the list of
      environments ending.  Unlike analyze_calltree, REFUTED does not end the loop. *)
  Fixpoint explore (sched : list (nat * env)) (t : node) : list tried * node :=
    match sched with
    | [] => ([], t)
    | (fuel, E) :: rest =>
        let o := iteration Expr VExpr Val expr_eqb prog fuel E t in
        if n_exh (o_node o) then ([(o_hist o, o_leaf o)], o_node o)
        else let '(l, t') := explore rest (o_node o) in ((o_hist o, o_leaf o) :: l, t')
    end.

  (** The records of the paths that were finished, rather than cut short. *)
  Fixpoint finished (l : list tried) : list (hist * P) :=
    match l with
    | [] => []
    | (h, r) :: l =>
        if status_eqb (a_status r) (Some Unknown) then finished l
        else match code h with
             | inl _ => finished l
             | inr p => (h, p) :: finished l
             end
    end.
End Explore.

(** *** diff_behavior.py *)

(** What one of the two calls did; describe_behavior 76-88.  [XIgnored]: the call
    raised IgnoreAttempt or PostconditionFailed, which becomes the pair
    (None, IgnoreAttempt()). *)
Inductive excn := XNone | XRaised | XIgnored.

(** 34-37 *)
Inductive exc_kind := KAll | KSameType | KTypeAndMessage.

(** Everything run_iteration finds out about a path, 268-279.  The comparisons are
    what flexible_equal answers, [None] if it raises (the == of user classes may). *)
Record dpath := mkDp {
  d_exc1 : excn; d_exc2 : excn;
  d_same_type : bool;        (* type(exc1) == type(exc2) *)
  d_same_repr : bool;        (* repr(exc1) == repr(exc2) *)
  d_rets : option bool;      (* flexible_equal(return1, return2) *)
  d_args : option bool;      (* flexible_equal(args1.arguments, args2.arguments) *)
  d_legal : bool;            (* deferred assumptions hold in detach_path *)
  d_shown : bool }.          (* realizing and repr()ing the values raised nothing *)

(** check_exception_equivalence, 241-256 *)
Definition exceptions_equivalent (k : exc_kind) (p : dpath) : bool :=
  match d_exc1 p, d_exc2 p with
  | XNone, XNone => true
  | XNone, _ | _, XNone => false
  | _, _ => match k with
            | KAll => true
            | KSameType => d_same_type p
            | KTypeAndMessage => d_same_repr p
            end
  end.

(** run_iteration, 259-317: what it returns, ([None, None] is [DSkip]). *)
Inductive diteration := DSame | DDiffer | DSkip.
Definition run_iteration (k : exc_kind) (p : dpath) : diteration :=
  match d_rets p with
  | None => DSkip                                           (* 313-317 *)
  | Some rets =>
      match (if rets then d_args p else Some false) with
      | None => DSkip
      | Some args =>
          if args && exceptions_equivalent k p
          then if d_legal p then DSame else DSkip           (* 283-285 *)
          else if d_legal p && d_shown p then DDiffer else DSkip
      end
  end.

(** 218-220, the status of the path *)
Definition djudge (k : exc_kind) (p : dpath) : analysis :=
  match run_iteration k p with
  | DSame => mkA (Some Confirmed) [] None
  | DDiffer => mkA (Some Refuted) [] None
  | DSkip => mkA None [] None
  end.

Definition differs (k : exc_kind) (p : dpath) : bool :=
  match run_iteration k p with DDiffer => true | _ => false end.

Section Diff.
  Variables (Expr VExpr Val : Type).
  Variable expr_eqb : Expr -> Expr -> bool.
  Variable kind : exc_kind.
  Notation hist := (list (ans Val)).
  Notation env := (env Expr VExpr Val).

  (** diff_behavior_with_signature, 180-238: the differences yielded, how many
      iterations were attempted ("num_paths"), whether the paths were exhausted.
      The loop is range(1, max_iterations). *)
  Definition diff_with_signature (code : hist -> req Expr VExpr + dpath)
             (max_iterations : nat) (sched : list (nat * env))
    : list (hist * dpath) * nat * bool :=
    let '(l, t) := explore Expr VExpr Val dpath expr_eqb code (djudge kind)
                     (firstn (max_iterations - 1) sched) Stem in
    (filter (fun hp => differs kind (snd hp)) (finished Expr VExpr Val dpath code l), length l, n_exh t).

  (** What is printed when no difference is left; main.py 690-700. *)
  Inductive printed :=
  | PDiffs (n : nat)                       (* exit code 1 *)
  | PNone (iterations : nat) (all_paths_exhausted : bool).   (* exit code 0 *)

  (** main.py diffbehavior 675-714 with diff_behavior 130-158: both orders are tried,
      half of the iterations each; "exhaustion" is counted over both.  [select] is the
      greedy choice of 160-177 (see Cover_Model). *)
  Definition diffbehavior (select : list (hist * dpath) -> list (hist * dpath) -> nat)
             (code1 code2 : hist -> req Expr VExpr + dpath)
             (half1 half2 : nat) (sched1 sched2 : list (nat * env)) : printed :=
    let '(d1, n1, x1) := diff_with_signature code1 half1 sched1 in
    let '(d2, n2, x2) := diff_with_signature code2 half2 sched2 in
    match select d1 d2 with
    | O => PNone (n1 + n2) (x1 || x2)
    | n => PDiffs n
    end.
End Diff.

(** *** explore_paths and path_cover.py *)

(** A path of explore_paths, core.py 1450-1466: how the function ended.  An ignored
    attempt (IgnoreAttempt, PostconditionFailed) is suppressed by ExceptionFilter and
    goes on to on_path_complete like a return of None. *)
Inductive ending := EReturned | ERaised | EIgnored.
Record cpath := mkCp {
  c_end : ending;
  c_cov : list Z;        (* opcode offsets of the function that were executed *)
  c_legal : bool;        (* deferred assumptions hold in detach_path *)
  c_shown : bool }.      (* realizing the values for the summary raised nothing *)

(** on_path_complete (path_cover.py 76-128) always returns False, having caught
    user exceptions and IgnoreAttempt; the status is CONFIRMED, core.py 1464. *)
Definition cjudge (p : cpath) : analysis := mkA (Some Confirmed) [] None.

(** Does on_path_complete append a PathSummary? *)
Definition summarized (p : cpath) : bool := c_legal p && c_shown p.
(** What the summary says: path_cover.py 97-125. *)
Inductive summary := SReturns | SRaises.
Definition summary_of (p : cpath) : summary :=
  match c_end p with ERaised => SRaises | EReturned | EIgnored => SReturns end.

Section Cover.
  Variables (Expr VExpr Val : Type).
  Variable expr_eqb : Expr -> Expr -> bool.
  Notation hist := (list (ans Val)).
  Notation env := (env Expr VExpr Val).
  (** The list [paths] built by path_cover.py 130. *)
  Definition summaries (code : hist -> req Expr VExpr + cpath) (max_iterations : nat)
             (sched : list (nat * env)) : list (hist * cpath) * bool :=
    let '(l, t) := explore Expr VExpr Val cpath expr_eqb code cjudge
                     (firstn max_iterations sched) Stem in
    (filter (fun hp => summarized (snd hp)) (finished Expr VExpr Val cpath code l), n_exh t).
End Cover.
