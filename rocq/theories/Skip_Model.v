(** Model of how calls of functions with contracts are skipped ("short-circuited") during an
    analysis: crosshair/core.py 1104-1198 (ShortCircuitingContext), 1738-1801
    (consider_shortcircuit), 1804-1832 (shortcircuit), crosshair/enforce.py 65-140
    (EnforcementWrapper), crosshair/statespace.py 1245-1292 (deferred assumptions), and the part of
    crosshair/core.py 1517-1678 (attempt_call) that turns the end of a path into a status.

    Simplifications.  An object is a cell of a heap, with content in [V]; the content stands for all
    that == looks at.  A function is a program that works on cells holding copies of its arguments
    and returns the content of its result: functions that modify their arguments, keep a reference
    to them or depend on anything else are not represented (consider_shortcircuit 1758-1762 refuses
    those that are declared to modify arguments).  The free variable that replaces a result takes
    any content; the choices of a path, which calls are skipped and the contents of the free
    variables, are given as a list.  Type variables and overloads are not modelled. *)
From Coq Require Import List Bool PeanoNat.
From Verif Require Import Py.
Import ListNotations.

(** a program, by what it does next *)
Inductive prog (V : Type) : Type :=
| Ret (v : V)
| Raise (e : exc)
| Look (x : nat) (k : V -> prog V)
| Update (x : nat) (g : V -> V) (k : prog V)
| Call (f : nat) (args : list nat) (k : res nat -> prog V).
Arguments Ret {V} v. Arguments Raise {V} e. Arguments Look {V} x k. Arguments Update {V} x g k. Arguments Call {V} f args k.

(** a function with its contract; [pure]: its postcondition says that no argument is modified *)
Record fn_ (V : Type) := { body : prog V; pre : list V -> bool; post : list V -> V -> bool; pure : bool }.
Arguments body {V} f. Arguments pre {V} f. Arguments post {V} f. Arguments pure {V} f.

(** how a program ends when contracts are enforced *)
Inductive outcome (V : Type) : Type := Returns (v : V) | Raises (e : exc) | PreconditionFailed | PostconditionFailed.
Arguments Returns {V} v. Arguments Raises {V} e. Arguments PreconditionFailed {V}. Arguments PostconditionFailed {V}.

Section Skip.
Variable V : Type.
Variable dflt : V.
(** the == of Python *)
Variable veq : V -> V -> bool.
Variable fns : nat -> fn_ V.

Definition get (h : list V) (x : nat) : V := nth x h dflt.
Fixpoint set (h : list V) (x : nat) (v : V) : list V :=
  match h, x with [] , _ => [] | _ :: h, O => v :: h | w :: h, S x => w :: set h x v end.

(** A call as Python makes it: no contracts, nothing skipped (reconciled, core.py 1827-1828, runs
    outside of enabled_enforcement and with [engaged] false).  None: no fuel left. *)
Fixpoint run (fuel : nat) (p : prog V) (h : list V) : option (res V) :=
  match fuel with
  | O => None
  | S fuel =>
      match p with
      | Ret v => Some (Ok v)
      | Raise e => Some (Err e)
      | Look x k => run fuel (k (get h x)) h
      | Update x g k => run fuel k (set h x (g (get h x)))
      | Call f args k =>
          match run fuel (body (fns f)) (map (get h) args) with
          | None => None
          | Some (Ok v) => run fuel (k (Ok (length h))) (h ++ [v])
          | Some (Err e) => run fuel (k (Err e)) h
          end
      end
  end.

(** the value a skipped call returned, as it is at the end of the path, with the call *)
Record deferred := { final : V; called : nat; with_args : list V }.
(** the choices not used yet, and what is to be reconciled *)
Definition path := (outcome V * list (option V) * list deferred)%type.
(** the calls skipped so far: cell of the result, function, copies of the arguments *)
Definition pending := list (nat * nat * list V).
Definition finish (h : list V) (ps : pending) : list deferred :=
  map (fun '(x, f, vs) => {| final := get h x; called := f; with_args := vs |}) ps.

(** [skipping fuel ds p h ps]: run [p] with contracts enforced (enforce.py 74-140: preconditions,
    then the call, then postconditions; these two exceptions are not caught by programs), skipping
    the calls for which the next choice in [ds] is a value. *)
Fixpoint skipping (fuel : nat) (ds : list (option V)) (p : prog V) (h : list V) (ps : pending) : option path :=
  match fuel with
  | O => None
  | S fuel =>
      match p with
      | Ret v => Some (Returns v, ds, finish h ps)
      | Raise e => Some (Raises e, ds, finish h ps)
      | Look x k => skipping fuel ds (k (get h x)) h ps
      | Update x g k => skipping fuel ds k (set h x (g (get h x))) ps
      | Call f args k =>
          let vs := map (get h) args in
          if negb (pre (fns f) vs) then Some (PreconditionFailed, ds, finish h ps)
          else
            (* 1758-1762: only if no argument is modified; 1795-1801: fork_parallel *)
            let '(choice, ds) := if pure (fns f) then match ds with c :: ds => (c, ds) | [] => (None, []) end else (None, ds) in
            match choice with
            | Some v =>
                (* 1804-1832, then the postcondition, enforce.py 117-138 *)
                if post (fns f) vs v then skipping fuel ds (k (Ok (length h))) (h ++ [v]) (ps ++ [(length h, f, vs)])
                else Some (PostconditionFailed, ds, finish h ps)
            | None =>
                match skipping fuel ds (body (fns f)) vs [] with
                | None => None
                | Some (Returns v, ds, later) =>
                    if post (fns f) vs v then
                      match skipping fuel ds (k (Ok (length h))) (h ++ [v]) ps with
                      | None => None
                      | Some (o, ds, later') => Some (o, ds, later ++ later')
                      end
                    else Some (PostconditionFailed, ds, later ++ finish h ps)
                | Some (Raises e, ds, later) =>
                    match skipping fuel ds (k (Err e)) h ps with
                    | None => None
                    | Some (o, ds, later') => Some (o, ds, later ++ later')
                    end
                | Some (o, ds, later) => Some (o, ds, later ++ finish h ps)
                end
            end
      end
  end.

(** statespace.py 1284-1291: the assumptions, checked in order *)
Inductive checked := Holds | Fails | Escapes (e : exc) | Endless.
Fixpoint reconcile (fuel : nat) (l : list deferred) : checked :=
  match l with
  | [] => Holds
  | d :: l =>
      match run fuel (body (fns (called d))) (with_args d) with
      | None => Endless
      | Some (Err e) => Escapes e
      | Some (Ok v) => if veq (final d) v then reconcile fuel l else Fails
      end
  end.

(** attempt_call 1563-1678: PostconditionFailed of a call is ignored (ExceptionFilter 239), any other
    exception and a false postcondition are reported after the deferred assumptions hold; a path
    that is confirmed is not reconciled.  [Crashes]: an exception that calltree_analysis (1288-1335)
    does not handle. *)
Inductive status := Confirmed | Refuted | Ignored | Crashes (e : exc) | Timeout.
Definition report (fuel : nat) (l : list deferred) : status :=
  match reconcile fuel l with Holds => Refuted | Fails => Ignored | Escapes e => Crashes e | Endless => Timeout end.
Definition attempt (fuel : nat) (ds : list (option V)) (p : prog V) (h : list V) (good : V -> bool) : status :=
  match skipping fuel ds p h [] with
  | None => Timeout
  | Some (Returns v, _, later) => if good v then Confirmed else report fuel later
  | Some (PostconditionFailed, _, _) => Ignored
  | Some (_, _, later) => report fuel later
  end.
End Skip.
