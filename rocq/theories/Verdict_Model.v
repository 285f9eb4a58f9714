(** Model of what happens around the path search: crosshair/core.py attempt_call
    (how one path is judged), ExceptionFilter, analyze_calltree (the loop and its
    final verdict) and ConditionCheckable.analyze (the messages shown).

    Simplifications:
    - A path is driven by [code]: given the answers received so far, the contract
      and body under analysis either ask the engine something ([inl]) or are
      finished, in which case a [path] record says what each part did.
    - Messages carry only their kind; the failing precondition is its line and
      whether a reason is attached.
    - MessageCollector (statespace.py, see Messages_Model) is the identity here.
    - Paths cut short by timeouts, unknown solver answers or proxy intolerance
      detected by the engine itself come from [e_abort] and fuel of
      SearchTree_Model. *)
From Coq Require Import List Bool ZArith.
From Verif Require Import Py SearchTree_Model.
Import ListNotations.

(** Kinds of exceptions that can leave a piece of user code, as ExceptionFilter
    tells them apart (core.py 238-277). *)
Inductive exck :=
| XPostFailed   (* PostconditionFailed of a callee *)
| XIgnore       (* IgnoreAttempt *)
| XExpected     (* listed under "raises:" *)
| XProxy        (* suspected_proxy_intolerance_exception, 183-216 *)
| XUser         (* any other Exception, or PreconditionFailed *)
| XUnexplored.  (* UnexploredPath: not an Exception, re-raised *)

(** Outcome of a "with ExceptionFilter(...)" block that raised. *)
Inductive filtered := FIgnore (r : analysis) | FUser | FReraise (k : exck).

Definition A_conf : analysis := mkA (Some Confirmed) [] None.

(** ExceptionFilter.__exit__, core.py 238-277. Z3Exception and NotDeterministic
    (267-270, re-raised) are not raised by a deterministic program whose solver
    does not crash. *)
Definition exit_filter (k : exck) : filtered :=
  match k with
  | XPostFailed | XIgnore => FIgnore A_ignore
  | XExpected => FIgnore A_conf
  | XProxy => FReraise XUnexplored
  | XUser => FUser
  | XUnexplored => FReraise k
  end.

(** core.py 1330-1333: exceptions leaving attempt_call. *)
Definition leave (k : exck) : analysis :=
  match k with
  | XIgnore => A_ignore
  | _ => A_unknown
  end.

(** Result of evaluating a condition. *)
Inductive ev := EvTrue | EvFalse | EvRaise (k : exck).

Record path := mkPath {
  p_pres : list (Z * option ev);  (* line, and outcome unless it did not compile *)
  p_body : option exck;           (* None: returned *)
  p_mutated : bool;               (* an argument not marked mutable changed *)
  p_post : ev;
  p_deferred : bool }.            (* all deferred assumptions hold, 1284-1291 *)

(** Messages: the number of their MessageType, statespace.py 92-103. *)
Definition msg_post_err : Z := 3.
Definition msg_exec_err : Z := 4.
Definition msg_post_fail : Z := 5.

(** What attempt_call does with a finished path: return an analysis (or raise)
    at once, or detach the path, describe the counterexample and then return. *)
Inductive judged := JNow (r : analysis) | JDetach (r : analysis).

Definition A_fail (m : Z) : analysis := mkA (Some Refuted) [m] None.

(** The rest of attempt_call once the preconditions hold, core.py 1569-1676. *)
Definition judge_body (p : path) : judged :=
  match p_body p with
  | Some k => match exit_filter k with
              | FIgnore r => JNow r                          (* 1584-1586 *)
              | FUser => JDetach (A_fail msg_exec_err)       (* 1587-1608 *)
              | FReraise k => JNow (leave k)
              end
  | None =>
      if p_mutated p then JDetach (A_fail msg_post_err)      (* 1610-1628 *)
      else match p_post p with
           | EvRaise k => match exit_filter k with
                          | FIgnore r => JNow r              (* 1642-1644 *)
                          | FUser => JDetach (A_fail msg_post_err)  (* 1645-1665 *)
                          | FReraise k => JNow (leave k)
                          end
           | EvTrue => JNow A_conf                           (* 1666-1668 *)
           | EvFalse => JDetach (A_fail msg_post_fail)       (* 1669-1685 *)
           end
  end.

(** The precondition loop of attempt_call, core.py 1539-1567. *)
Fixpoint judge (pres : list (Z * option ev)) (p : path) : judged :=
  match pres with
  | [] => judge_body p
  | (line, None) :: rest => judge rest p                     (* 1540-1541 *)
  | (line, Some EvTrue) :: rest => judge rest p
  | (line, Some EvFalse) :: rest => JNow (mkA None [] (Some (line, 0%Z)))
  | (line, Some (EvRaise k)) :: rest =>
      match exit_filter k with
      | FIgnore r => JNow r
      | FUser => JNow (mkA None [] (Some (line, 1%Z)))
      | FReraise k => JNow (leave k)
      end
  end.

Definition judge_path (p : path) : judged := judge (p_pres p) p.

Section Verdict.
  Variables (Expr VExpr Val : Type).
  Variable expr_eqb : Expr -> Expr -> bool.
  Notation hist := (list (ans Val)).

  (** Requests user code makes; detaching and ending are attempt_call's. *)
  Inductive req :=
  | QFork (e : Expr) | QRealize (x : VExpr) | QPar | QAssume (e : Expr) | QPossible (e : Expr).

  Definition act (q : req) : action Expr VExpr :=
    match q with
    | QFork e => AFork e
    | QRealize x => ARealize x
    | QPar => APar
    | QAssume e => AAssume e
    | QPossible e => APossible e
    end.

  (** The contract and the body under analysis. *)
  Variable code : hist -> req + path.
  (** make_counterexample_message after detaching: realizes the arguments or forks
      on something about them ([Some]), until the message is complete ([None]).
      It is assumed to add no assumption and to raise nothing. *)
  Variable cex : hist -> option (VExpr + Expr).

  (** The path record, and how many answers ago the code had finished. *)
  Fixpoint settled (h : hist) : option (path * nat) :=
    match (match h with [] => None | _ :: t => settled t end) with
    | Some (p, n) => Some (p, S n)
    | None => match code h with inl _ => None | inr p => Some (p, 0) end
    end.

  (** attempt_call as a program of the engine, core.py 1517-1676. *)
  Definition prog (h : hist) : action Expr VExpr :=
    match settled h with
    | None => match code h with inl q => act q | inr _ => ADone A_unknown end
    | Some (p, n) =>
        match judge_path p with
        | JNow r => ADone r
        | JDetach r =>
            match n with
            | O => ADetach
            | S _ => if p_deferred p
                     then match cex h with
                          | Some (inl x) => ARealize x
                          | Some (inr e) => AFork e
                          | None => ADone r
                          end
                     else ADone A_ignore                     (* 1284-1291 *)
            end
        end
    end.

  Notation node := (node Expr VExpr Val).
  Notation env := (env Expr VExpr Val).

  (** State of the loop of analyze_calltree, core.py 1255-1268. *)
  Record lstate := mkL {
    l_tree : node;
    l_fp : option (Z * Z);   (* failing precondition: line, reason (0: empty) *)
    l_conf : nat }.          (* num_confirmed_paths *)

  (** core.py 1296-1315. Only a path whose attempt_call returned normally gets
      here: paths that raised have status UNKNOWN, or the message -1, or are
      ignored (in which case nothing happens either way). *)
  Definition upd_fp (fp : option (Z * Z)) (r : analysis) : option (Z * Z) :=
    match fp with
    | None => None
    | Some (line, reason) =>
        match a_fp r with
        | None => match a_status r with
                  | None | Some Unknown => fp
                  | Some Confirmed => None
                  | Some Refuted => match a_msgs r with
                                    | m :: _ => if (m =? -1)%Z then fp else None
                                    | [] => None
                                    end
                  end
        | Some (l', r') =>
            if (l' =? line)%Z && negb (r' =? 0)%Z then Some (line, r')
            else if (line <? l')%Z then Some (l', r')
            else fp
        end
    end.

  (** One turn of the loop, core.py 1281-1337. *)
  Definition turn (fe : nat * env) (s : lstate) : lstate * analysis :=
    let o := iteration Expr VExpr Val expr_eqb prog (fst fe) (snd fe) (l_tree s) in
    (mkL (o_node o) (upd_fp (l_fp s) (o_leaf o))
         (if status_eqb (a_status (o_leaf o)) (Some Confirmed)
          then S (l_conf s) else l_conf s),
     o_leaf o).

  (** The loop, core.py 1273-1351; also yields the analyses of the paths that were
      tried, oldest first.  Stopping for lack of time or interest is the list of
      environments ending. *)
  Fixpoint loop (sched : list (nat * env)) (s : lstate) : lstate * list analysis :=
    match sched with
    | [] => (s, [])
    | fe :: rest =>
        let '(s1, r) := turn fe s in
        if n_exh (l_tree s1) || status_eqb (n_status (l_tree s1)) (Some Refuted)
        then (s1, [r])
        else let '(s2, rs) := loop rest s1 in (s2, r :: rs)
    end.

  (** Messages that reach the user. *)
  Inductive msg := MPath (m : Z) | MPreUnsat (line : Z) (reason : Z)
                 | MConfirmed | MCannotConfirm.

  (** CallTreeAnalysis, core.py 1211-1216. *)
  Record verdict := mkV { v_status : status; v_msgs : list msg; v_conf : nat }.

  (** analyze_calltree, core.py 1249-1396. [pres] are the lines of conditions.pre;
      [max_iterations] bounds the loop; with 0 the name i of the last message is
      never bound (1389). *)
  Definition analyze_calltree (max_iterations : nat) (pres : list Z)
             (sched : list (nat * env)) : res verdict :=
    let start := mkL Stem (match pres with [] => None | l :: _ => Some (l, 0%Z) end) 0 in
    let s := fst (loop (firstn max_iterations sched) start) in
    let top := n_res (l_tree s) in
    let msgs := map MPath (a_msgs top) in
    let st := match a_status top with None => Unknown | Some x => x end in
    match l_fp s with
    | Some (line, reason) =>
        if negb (Nat.eqb (l_conf s) 0) then Err AssertionError       (* 1361 *)
        else if Nat.eqb max_iterations 0 then Err UnboundLocalError
        else Ok (mkV Refuted (msgs ++ [MPreUnsat line reason]) (l_conf s))
    | None => if Nat.eqb max_iterations 0 then Err UnboundLocalError
              else Ok (mkV st msgs (l_conf s))
    end.

  (** ConditionCheckable.analyze, core.py 851-890. *)
  Definition analyze (max_iterations : nat) (pres : list Z)
             (sched : list (nat * env)) : res (list msg) :=
    do v <- analyze_calltree max_iterations pres sched;
    Ok (match v_status v with
        | Unknown => [MCannotConfirm]
        | Confirmed => [MConfirmed]
        | Refuted => v_msgs v
        end).
End Verdict.

Arguments QFork {_ _}.
Arguments QRealize {_ _}.
Arguments QPar {_ _}.
Arguments QAssume {_ _}.
Arguments QPossible {_ _}.
Arguments act {_ _}.
Arguments l_tree {_ _ _}.
Arguments l_fp {_ _ _}.
Arguments l_conf {_ _ _}.
Arguments mkL {_ _ _}.
