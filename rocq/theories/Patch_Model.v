(* Model of crosshair/tracers.py 206-268 (PatchingModule): replacing functions as they are
   called.

   Functions and code objects are numbers; [code f] is f.__code__.  Functions are hashable
   here, and nothing has a name that ends in _crosshair_wrapper (258-262: such callers and
   targets are left alone). *)
From Coq Require Import List Bool Arith.
Import ListNotations.

(** a dict, latest first *)
Definition dict (K V : Type) := list (K * V).
Fixpoint lookup {K V} (eqb : K -> K -> bool) (d : dict K V) (k : K) : option V :=
  match d with [] => None | (k', v) :: r => if eqb k' k then Some v else lookup eqb r k end.
Definition remove {K V} (eqb : K -> K -> bool) (d : dict K V) (k : K) : dict K V := filter (fun e => negb (eqb (fst e) k)) d.
Definition insert {K V} (eqb : K -> K -> bool) (d : dict K V) (k : K) (v : V) : dict K V := (k, v) :: remove eqb d k.
Definition eqb2 (a b : nat * nat) : bool := Nat.eqb (fst a) (fst b) && Nat.eqb (snd a) (snd b).

Record module := Module { overrides : dict nat nat; nextfn : dict (nat * nat) nat }.
Definition empty : module := Module [] [].

Section Code.
  Variable code : nat -> nat.

  (** 224-231 add; None is a failed assertion *)
  Fixpoint add (m : module) (l : list (nat * nat)) : option module :=
    match l with
    | [] => Some m
    | (orig, new) :: r =>
        let prev := match lookup Nat.eqb (overrides m) orig with Some f => f | None => orig end in
        if Nat.eqb prev new then None
        else add (Module (insert Nat.eqb (overrides m) orig new) (insert eqb2 (nextfn m) (code new, orig) prev)) r
    end.
  (** 233-236 pop; None is a failed assertion or KeyError *)
  Fixpoint pop (m : module) (l : list (nat * nat)) : option module :=
    match l with
    | [] => Some m
    | (orig, the_override) :: r =>
        match lookup Nat.eqb (overrides m) orig, lookup eqb2 (nextfn m) (code the_override, orig) with
        | Some f, Some prev =>
            if Nat.eqb f the_override
            then pop (Module (insert Nat.eqb (overrides m) orig prev) (remove eqb2 (nextfn m) (code the_override, orig))) r
            else None
        | _, _ => None
        end
    end.
  (** 241-268 trace_call, when a function with the code [caller] calls [fn]: what is put in
      its place, if anything *)
  Definition trace_call (m : module) (caller fn : nat) : option nat :=
    match lookup Nat.eqb (overrides m) fn with
    | None => None
    | Some target =>
        match lookup eqb2 (nextfn m) (caller, fn) with
        | Some next => if Nat.eqb next fn then None else Some next
        | None => Some target
        end
    end.
  (** 182-191 trace_op: what is called in the end *)
  Definition called (m : module) (caller fn : nat) : nat :=
    match trace_call m caller fn with Some f => f | None => fn end.
End Code.

Inductive op := Add (l : list (nat * nat)) | Pop (l : list (nat * nat)).
Fixpoint run (code : nat -> nat) (m : module) (ops : list op) : option module :=
  match ops with
  | [] => Some m
  | Add l :: ops => match add code m l with Some m => run code m ops | None => None end
  | Pop l :: ops => match pop code m l with Some m => run code m ops | None => None end
  end.
