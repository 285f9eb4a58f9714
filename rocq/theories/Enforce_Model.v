(** Contract enforcement: enforce.py 65-139 EnforcementWrapper, 196-231 EnforcedConditions.
    A program is a tree of steps on the program's state and calls of functions; a call passes
    one argument (which stands for all of them) and its outcome, also an exception, is given to
    the rest of the program (which may catch it).
    Simplified: the calls that enforcement leaves alone because of the file of the caller
    (142-178, 233-250), constructors (47-59) and the special __old__.self of __init__ (110-111)
    are not modelled. *)
From Coq Require Import List Bool Arith.
Import ListNotations.

Section Enforce.
(** values, the program's state, and the copies of arguments that postconditions see as __old__ *)
Variables V store old : Type.
Variable truth : V -> bool.

(** How a piece of code ends.  PreconditionFailed and PostconditionFailed are told from other
    exceptions (22-29). *)
Inductive outcome := Returned (v : V) | PreconditionFailed (f : nat) | PostconditionFailed (f : nat) | TypeErr | Raised (e : nat).

Inductive code :=
| Done (o : outcome)
| Step (update : store -> store) (k : store -> code)
| Call (f : nat) (a : V) (k : outcome -> code).

(** condition_parser.py 189-195: a condition whose source does not compile has no [evaluate] *)
Record contract := { pre : list (option (V -> code)); post : list (option (V -> old -> V -> code)); unknown_mutable : bool }.

Variable body : nat -> V -> code.
(** None: no contract (275-278 of trace_call) *)
Variable conditions : nat -> option contract.
(** 78 signature.bind: None when it raises TypeError *)
Variable bind : nat -> V -> option V.
(** 85-93: copies of the arguments (those that cannot be copied are left out) *)
Variable copy_args : V -> store -> old.

Inductive event :=
| Checking (f : nat) | Checked (f : nat)   (* entering and leaving currently_enforcing(f) *)
| EvalPre (f i : nat) | EvalPost (f i : nat)
| Enter (f : nat).                          (* the body of f starts *)

(** fns_enforcing (193) is part of the state that calls change *)
Record world := W { st : store; fns_enforcing : option (list nat); log : list event }.
Definition emit (e : event) (w : world) : world := W (st w) (fns_enforcing w) (log w ++ [e]).
(** 198-207 currently_enforcing: add; the removal is in a finally clause *)
Definition start_checking (f : nat) (w : world) : world :=
  emit (Checking f) (W (st w) (match fns_enforcing w with None => None | Some l => Some (f :: l) end) (log w)).
Definition stop_checking (f : nat) (w : world) : world :=
  emit (Checked f) (W (st w) (match fns_enforcing w with None => None | Some l => Some (filter (fun g => negb (f =? g)) l) end) (log w)).
(** 74 *)
Definition not_enforced (f : nat) (w : world) : bool :=
  match fns_enforcing w with None => true | Some l => existsb (Nat.eqb f) l end.

Definition result := option (outcome * world).

Section Loops.
Variable run : world -> code -> result.
(** 100-108: None is a normal end of the loop *)
Fixpoint pre_loop (f i : nat) (l : list (option (V -> code))) (args : V) (w : world) : option (option outcome * world) :=
  match l with
  | [] => Some (None, w)
  | None :: _ => Some (Some TypeErr, w)    (* 104: evaluate is None, which cannot be called *)
  | Some p :: l => match run (emit (EvalPre f i) w) (p args) with
                   | None => None
                   | Some (Returned v, w) => if truth v then pre_loop f (S i) l args w else Some (Some (PreconditionFailed f), w)
                   | Some (o, w) => Some (Some o, w)
                   end
  end.
(** 119-131 *)
Fixpoint post_loop (f i : nat) (l : list (option (V -> old -> V -> code))) (args : V) (o : old) (ret : V) (w : world) : option (option outcome * world) :=
  match l with
  | [] => Some (None, w)
  | None :: l => post_loop f (S i) l args o ret w    (* 121-122 *)
  | Some p :: l => match run (emit (EvalPost f i) w) (p args o ret) with
                   | None => None
                   | Some (Returned v, w) => if truth v then post_loop f (S i) l args o ret w else Some (Some (PostconditionFailed f), w)
                   | Some (o, w) => Some (Some o, w)
                   end
  end.
(** 71-133 _crosshair_wrapper *)
Definition wrapper (f : nat) (c : contract) (a : V) (w : world) : result :=
  if not_enforced f w then run (emit (Enter f) w) (body f a) else
  let w := start_checking f w in
  match bind f a with
  | None => Some (TypeErr, stop_checking f w)
  | Some args =>
    let o := copy_args args (st w) in
    if unknown_mutable c then Some (PostconditionFailed f, stop_checking f w) else
    match pre_loop f 0 (pre c) args w with
    | None => None
    | Some (Some e, w) => Some (e, stop_checking f w)
    | Some (None, w) =>
      match run (emit (Enter f) (stop_checking f w)) (body f a) with
      | None => None
      | Some (Returned ret, w) =>
        match post_loop f 0 (post c) args o ret (start_checking f w) with
        | None => None
        | Some (Some e, w) => Some (e, stop_checking f w)
        | Some (None, w) => Some (Returned ret, stop_checking f w)
        end
      | Some (o, w) => Some (o, w)
      end
    end
  end.
End Loops.

(** None when the fuel runs out: the program may run forever *)
Fixpoint run (n : nat) (w : world) (c : code) : result :=
  match n with
  | O => None
  | S n =>
    match c with
    | Done o => Some (o, w)
    | Step u k => run n (W (u (st w)) (fns_enforcing w) (log w)) (k (st w))
    | Call f a k =>
      match (match conditions f with
             | None => run n (emit (Enter f) w) (body f a)
             | Some c => wrapper (run n) f c a w
             end) with
      | None => None
      | Some (o, w) => run n w (k o)
      end
    end
  end.
End Enforce.
