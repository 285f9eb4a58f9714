(** Model of CrossHair's path search: crosshair/statespace.py (search tree,
    StateSpace.choose_possible, find_model_value, fork_parallel, detach_path,
    bubble_status) and the iteration loop of crosshair/core.py analyze_calltree.

    Simplifications, common to the whole file:
    - The program under analysis is an arbitrary deterministic function from the
      history of answers it has received to its next request ([action]).
    - z3 expressions are an abstract type [Expr] with a decidable equality, and a
      truth value under each assignment; realizable expressions are [VExpr] with a
      value under each assignment.  Nothing is assumed about either.
    - The solver, the random number generator, the pathing oracle and all timeouts
      live in an arbitrary per-iteration record [env].
    - A path (statespace.py keeps it in [choices_made] and walks it backwards in
      bubble_status) is the recursion stack of [run]: a node is updated after the
      recursive call on the chosen child returns, i.e. in the reversed order of
      bubble_status lines 1333-1334.
    - Statistics (StateSpaceCounter) are dropped: they only feed heuristics. *)
From Coq Require Import List Bool ZArith.
Import ListNotations.

(** statespace.py 126-141 VerificationStatus (REFUTED=0, UNKNOWN=1, CONFIRMED=2). *)
Inductive status := Refuted | Unknown | Confirmed.

(** min() on VerificationStatus, statespace.py 607 (uses __lt__ of 134-141). *)
Definition status_min (a b : status) : status :=
  match a, b with
  | Refuted, _ | _, Refuted => Refuted
  | Unknown, _ | _, Unknown => Unknown
  | Confirmed, Confirmed => Confirmed
  end.

(** statespace.py 144-149 CallAnalysis. A status of [None] means "ignore".
    Messages are opaque numbers; a failing precondition is (line, reason id). *)
Record analysis := mkA {
  a_status : option status;
  a_msgs : list Z;
  a_fp : option (Z * Z) }.

Definition A_ignore : analysis := mkA None [] None.
Definition A_unknown : analysis := mkA (Some Unknown) [] None.
(** An exception of CrossHair's own (CrossHairInternal, AssertionError,
    NotDeterministic) ends up as a REFUTED analysis with an EXEC_ERR message:
    core.py 276 (user_exc) / 1318-1329. Message -1 stands for it. *)
Definition A_internal : analysis := mkA (Some Refuted) [(-1)%Z] None.

(** Result of a z3 check, statespace.py 384-395 (unknown raises). *)
Inductive satres := Sat | Unsat | UnkSat.

(** How a path can be cut short at an arbitrary moment.
    [AbAttached]: an UnexploredPath exception reaches core.py 1330-1331, and
    bubble_status marks the current position (statespace.py 1324-1329).
    [AbUnattached]: detach_path handling NotDeterministic / UnknownSatisfiability /
    PathTimeout (statespace.py 1275-1283): the position is replaced by a node that
    is not part of the tree. *)
Inductive abort_mode := AbAttached | AbUnattached.

Section Engine.
  Variables (Expr VExpr Val : Type).
  Variable expr_eqb : Expr -> Expr -> bool.

  (** Answers the engine gives to the program. *)
  Inductive ans := ABool (b : bool) | AVal (v : Val) | AUnit.

  (** Requests a program makes of the engine. *)
  Inductive action :=
  | AFork (e : Expr)       (* smt_fork / choose_possible *)
  | ARealize (x : VExpr)   (* find_model_value *)
  | APar                   (* fork_parallel *)
  | AAssume (e : Expr)     (* StateSpace.add *)
  | APossible (e : Expr)   (* is_possible *)
  | ADetach                (* detach_path, after its deferred assumptions *)
  | ADone (r : analysis).  (* the path ends with this analysis *)

  (** The history is kept most recent answer first. *)
  Definition hist := list ans.
  Variable prog : hist -> action.

  (** Constraints held by the solver. *)
  Inductive lit := LExpr (e : Expr) (b : bool) | LVal (x : VExpr) (v : Val) (b : bool).

  (** The expression on which a WorstResultNode branches; statespace.py 625
      (plain) and 701 (ModelValueNode: [expr == condition_value]). *)
  Inductive kind := KExpr (e : Expr) | KVal (x : VExpr) (v : Val).

  Definition klit (k : kind) (b : bool) : lit :=
    match k with KExpr e => LExpr e b | KVal x v => LVal x v b end.

  (** Search tree. Stored [res]/[exh] are the fields [result]/[exhausted]. *)
  Inductive node :=
  | Stem                                                         (* 366-381 *)
  | Leaf (r : analysis)                                          (* 412-422 *)
  | Worst (k : kind) (forced : option bool) (pos neg : node)
          (res : analysis) (exh : bool)                          (* 619-709 *)
  | Par (pos neg : node) (res : analysis) (exh : bool)           (* 545-582 *)
  | Detached (child : node) (res : analysis) (exh : bool).       (* 472-495 *)

  (** is_exhausted: 348-349, 371-372, 415. *)
  Definition n_exh (n : node) : bool :=
    match n with
    | Stem => false
    | Leaf _ => true
    | Worst _ _ _ _ _ x | Par _ _ _ x | Detached _ _ x => x
    end.

  (** get_result: 351-352, 374-375, 414. *)
  Definition n_res (n : node) : analysis :=
    match n with
    | Stem => A_unknown
    | Leaf r => r
    | Worst _ _ _ _ r _ | Par _ _ r _ | Detached _ r _ => r
    end.

  Definition n_status (n : node) : option status := a_status (n_res n).

  Definition status_eqb (a b : option status) : bool :=
    match a, b with
    | None, None => true
    | Some Refuted, Some Refuted | Some Unknown, Some Unknown
    | Some Confirmed, Some Confirmed => true
    | _, _ => false
    end.

  (** merge_node_results, statespace.py 585-613. *)
  Definition merge_fp (l r : analysis) : option (Z * Z) :=
    match a_fp l, a_fp r with
    | Some lc, Some rc => if (fst rc <? fst lc)%Z then Some lc else Some rc
    | Some lc, None => Some lc
    | None, rfp => rfp
    end.

  Definition merge (left : analysis) (exhausted : bool) (n : node) : analysis * bool :=
    let right := n_res n in
    let exhausted := if n_exh n then exhausted else false in
    match a_status left, a_status right with
    | None, _ => (right, exhausted)
    | _, None => (left, exhausted)
    | Some ls, Some rs =>
        (mkA (Some (status_min ls rs)) (a_msgs left ++ a_msgs right)
             (merge_fp left right), exhausted)
    end.

  (** WorstResultNode._is_exhausted, statespace.py 643-648. *)
  Definition worst_exhausted (forced : option bool) (pos neg : node) : bool :=
    (n_exh pos && n_exh neg)
    || (match forced with Some true => n_exh pos | _ => false end)
    || (match forced with Some false => n_exh neg | _ => false end).

  (** WorstResultNode.compute_result, statespace.py 675-691. *)
  Definition worst_compute (forced : option bool) (pos neg : node) : analysis * bool :=
    let exhausted := worst_exhausted forced pos neg in
    if status_eqb (n_status pos) (Some Refuted)
       || match forced with Some true => true | _ => false end
    then (n_res pos, exhausted)
    else if status_eqb (n_status neg) (Some Refuted)
            || match forced with Some false => true | _ => false end
    then (n_res neg, exhausted)
    else merge (n_res pos) (n_exh pos) neg.

  (** ParallelNode.compute_result, statespace.py 556-572. *)
  Definition par_compute (pos neg : node) : analysis * bool :=
    if n_exh pos && negb (status_eqb (n_status pos) (Some Unknown))
    then (n_res pos, true)
    else if n_exh neg && negb (status_eqb (n_status neg) (Some Unknown))
    then (n_res neg, true)
    else merge (n_res pos) (n_exh pos && n_exh neg) neg.

  (** SearchTreeNode.update_result, statespace.py 354-360: nothing happens to an
      exhausted node. *)
  Definition upd_worst k forced pos neg res (exh : bool) : node :=
    if exh then Worst k forced pos neg res exh
    else let '(r, x) := worst_compute forced pos neg in Worst k forced pos neg r x.

  Definition upd_par pos neg res (exh : bool) : node :=
    if exh then Par pos neg res exh
    else let '(r, x) := par_compute pos neg in Par pos neg r x.

  (** bubble_status lines 1324-1329: grow a leaf at a stem, otherwise mark the
      position itself. *)
  Definition finish (n : node) (r : analysis) : node :=
    match n with
    | Stem => Leaf r
    | Leaf _ => Leaf r
    | Worst k f p q _ _ => Worst k f p q r true
    | Par p q _ _ => Par p q r true
    | Detached c _ _ => Detached c r true
    end.

  (** Everything outside the engine during one iteration. *)
  Record env := mkEnv {
    e_sat : list lit -> satres;              (* solver.check *)
    e_model : list lit -> VExpr -> Val;      (* solver.model().evaluate, 699 *)
    e_rand : hist -> list lit -> bool;       (* 533-540: random/oracle decision *)
    e_abort : hist -> list lit -> option abort_mode }.

  (** _exprs_known, statespace.py 794, 923-925, 984, 819-826. *)
  Fixpoint lookup (kn : list (Expr * bool)) (e : Expr) : option bool :=
    match kn with
    | [] => None
    | (e', b) :: r => if expr_eqb e' e then Some b else lookup r e
    end.

  (** WorstResultNode.__init__, statespace.py 624-641. [None] is
      UnknownSatisfiability. CROSSHAIR_EXTRA_ASSERTS and _PREVENT_FORKS (off by
      default) are not modelled. *)
  Definition grow_forced (E : env) (pc : list lit) (k : kind) : option (option bool) :=
    match e_sat E (klit k false :: pc) with
    | UnkSat => None
    | Sat => match e_sat E (klit k true :: pc) with
             | UnkSat => None
             | Sat => Some None
             | Unsat => Some (Some false)
             end
    | Unsat => Some (Some true)
    end.

  (** RandomizedBinaryPathNode.choose, 526-542. [None] is the failing assertion. *)
  Definition rand_choose (E : env) h pc (pos neg : node) : option bool :=
    match n_exh pos, n_exh neg with
    | false, false => Some (e_rand E h pc)
    | false, true => Some true
    | true, false => Some false
    | true, true => None
    end.

  (** WorstResultNode.choose, 656-665. *)
  Definition worst_choose (E : env) h pc forced pos neg : option bool :=
    match forced with
    | Some b => Some b
    | None => rand_choose E h pc pos neg
    end.

  (** What one iteration leaves: the subtree at the position where it started, the
      analysis of the path, the full history of answers and the constraints. *)
  Record out := mkOut { o_node : node; o_leaf : analysis; o_hist : hist; o_pc : list lit }.

  Definition stop (n : node) (r : analysis) h pc : out := mkOut (finish n r) r h pc.

  (** One path from the current position [n] on, followed by the bubbling of its
      result up to [n].
      - [known]: _exprs_known; [det]: is_detached.
      - running out of fuel is a path timeout (910-917; only the outcome UNKNOWN at
        the current position matters). *)
  Fixpoint run (fuel : nat) (E : env) (n : node) (h : hist) (pc : list lit)
           (kn : list (Expr * bool)) (det : bool) : out :=
    match fuel with
    | O => stop n A_unknown h pc
    | S f =>
      match e_abort E h pc with
      | Some AbAttached => stop n A_unknown h pc
      | Some AbUnattached => mkOut n A_unknown h pc
      | None =>
        (* choose and descend below a WorstResultNode; 957-985 and 1095-1118 *)
        let descend k forced p q res exh
            (kont : bool -> node -> out) : out :=
          match worst_choose E h pc forced p q with
          | None => stop (Worst k forced p q res exh) A_internal h pc
          | Some b =>
              let o := kont b (if b then p else q) in
              mkOut (if b then upd_worst k forced (o_node o) q res exh
                     else upd_worst k forced p (o_node o) res exh)
                    (o_leaf o) (o_hist o) (o_pc o)
          end in
        match prog h with
        | ADone r => stop n r h pc
        | AAssume e =>                                      (* 805-826 *)
            match lookup kn e with
            | None => run f E n (AUnit :: h) (LExpr e true :: pc) ((e, true) :: kn) det
            | Some true => run f E n (AUnit :: h) pc kn det
            | Some false => stop n A_internal h pc
            end
        | APossible e =>                                    (* 882-889 *)
            match e_sat E (LExpr e true :: pc) with
            | UnkSat => stop n A_unknown h pc
            | Sat => run f E n (ABool true :: h) pc kn det
            | Unsat => run f E n (ABool false :: h) pc kn det
            end
        | ADetach =>                                        (* 1259-1313 *)
            if det then run f E n (AUnit :: h) pc kn det
            else match n with
                 | Stem =>
                     let o := run f E Stem (AUnit :: h) pc kn true in
                     mkOut (Detached (o_node o) (o_leaf o) true)
                           (o_leaf o) (o_hist o) (o_pc o)
                 | _ => (* 1292-1309: nondeterminism *)
                     mkOut (Detached (Leaf A_internal) A_internal true) A_internal h pc
                 end
        | APar =>                                           (* 864-880 *)
            let go p q res exh :=
              match rand_choose E h pc p q with
              | None => stop (Par p q res exh) A_internal h pc
              | Some b =>
                  let o := run f E (if b then p else q) (ABool b :: h) pc kn det in
                  mkOut (if b then upd_par (o_node o) q res exh
                         else upd_par p (o_node o) res exh)
                        (o_leaf o) (o_hist o) (o_pc o)
              end in
            match n with
            | Stem => go Stem Stem A_ignore false
            | Par p q res exh => go p q res exh
            | _ => stop n A_internal h pc                   (* NotDeterministic *)
            end
        | AFork e =>                                        (* 919-985 *)
            match lookup kn e with
            | Some b => run f E n (ABool b :: h) pc kn det
            | None =>
                let go forced p q res exh :=
                  descend (KExpr e) forced p q res exh
                    (fun b c => run f E c (ABool b :: h) (LExpr e b :: pc)
                                    ((e, b) :: kn) det) in
                match n with
                | Stem => match grow_forced E pc (KExpr e) with
                          | None => stop Stem A_unknown h pc
                          | Some forced => go forced Stem Stem A_ignore false
                          end
                | Worst (KExpr e') forced p q res exh =>
                    if expr_eqb e' e then go forced p q res exh
                    else stop n A_internal h pc             (* NotDeterministic *)
                | _ => stop n A_internal h pc               (* NotDeterministic *)
                end
            end
        | ARealize x =>                                     (* 1075-1118 *)
            let go y v forced p q res exh :=
              descend (KVal y v) forced p q res exh
                (fun b c =>
                   let pc' := LVal x v b :: pc in
                   let h' := if b then AVal v :: h else h in
                   (* 1106-1107 *)
                   match (if det then e_sat E pc' else Sat) with
                   | UnkSat => stop c A_unknown h' pc'
                   | Unsat => stop c A_internal h' pc'
                   | Sat => run f E c h' pc' kn det
                   end) in
            match n with
            | Stem =>
                match e_sat E pc with
                | UnkSat => stop Stem A_unknown h pc
                | Unsat => stop Stem A_internal h pc
                | Sat => let v := e_model E pc x in
                         match grow_forced E pc (KVal x v) with
                         | None => stop Stem A_unknown h pc
                         | Some forced => go x v forced Stem Stem A_ignore false
                         end
                end
            | Worst (KVal y v) forced p q res exh => go y v forced p q res exh
            | _ => stop n A_internal h pc
            end
        end
      end
    end.

  (** One iteration from the root; core.py 1281-1337. *)
  Definition iteration (fuel : nat) (E : env) (t : node) : out :=
    run fuel E t [] [] [] false.

  (** The loop of analyze_calltree, core.py 1273-1351: stop when the tree is
      exhausted or REFUTED; stopping for any other reason (iteration limit,
      deadline, uninteresting iterations) is the list of environments ending. *)
  Fixpoint search (sched : list (nat * env)) (t : node) : node :=
    match sched with
    | [] => t
    | (fuel, E) :: rest =>
        if n_exh t || status_eqb (n_status t) (Some Refuted) then t
        else search rest (o_node (iteration fuel E t))
    end.
End Engine.

Arguments Stem {_ _ _}.
Arguments Leaf {_ _ _}.
Arguments Worst {_ _ _}.
Arguments Par {_ _ _}.
Arguments Detached {_ _ _}.
Arguments ABool {_}.
Arguments AVal {_}.
Arguments AUnit {_}.
Arguments AFork {_ _}.
Arguments ARealize {_ _}.
Arguments APar {_ _}.
Arguments AAssume {_ _}.
Arguments APossible {_ _}.
Arguments ADetach {_ _}.
Arguments ADone {_ _}.
Arguments LExpr {_ _ _}.
Arguments LVal {_ _ _}.
Arguments KExpr {_ _ _}.
Arguments KVal {_ _ _}.
Arguments klit {_ _ _}.
Arguments n_exh {_ _ _}.
Arguments n_res {_ _ _}.
Arguments n_status {_ _ _}.
Arguments merge {_ _ _}.
Arguments worst_exhausted {_ _ _}.
Arguments worst_compute {_ _ _}.
Arguments par_compute {_ _ _}.
Arguments upd_worst {_ _ _}.
Arguments upd_par {_ _ _}.
Arguments finish {_ _ _}.
Arguments e_sat {_ _ _}.
Arguments e_model {_ _ _}.
Arguments e_rand {_ _ _}.
Arguments e_abort {_ _ _}.
Arguments o_node {_ _ _}.
Arguments o_leaf {_ _ _}.
Arguments o_hist {_ _ _}.
Arguments o_pc {_ _ _}.
Arguments mkOut {_ _ _}.
Arguments mkEnv {_ _ _}.
Arguments stop {_ _ _}.
