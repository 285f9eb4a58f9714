(** What a user expects of contracts on classes: every implementation of a method is
    verified against the contracts of its superclasses (doc/source/contracts.rst), and
    the conditions of a method include those inferred from the invariants of its class
    and superclasses (the documentation of ClassConditions). *)
From Coq Require Import String List Bool.
From Verif Require Import Inherit_Model.
Import ListNotations.
Open Scope string_scope.
Open Scope list_scope.

Section S.
Variable cond : Type.
Notation cls := (cls cond).
Notation conds := (conds cond).

(** [a] is [c] or one of its superclasses *)
Inductive within : cls -> cls -> Prop :=
| w_self c : within c c
| w_base python bases members invs b a : In b bases -> within b a -> within (Cls python bases members invs) a.
(** The contract written on a function, given what is found of each kind of contract:
    the first that says anything, or else the last *)
Definition says (p : conds) : bool := match pre _ p, post _ p, messages _ p with [], [], [] => false | _, _, _ => true end.
Definition written (l : list (option conds)) : option conds :=
  match find (fun o => match o with Some p => says p | None => false end) l with
  | Some o => o
  | None => hd None (filter (fun o => match o with Some _ => true | None => false end) (rev l))
  end.
(** The contract written on the function [n] in class [c] *)
Definition contract (c : cls) (n : string) : option conds :=
  match c with Cls _ _ members _ => match lookup n members with Some l => written l | None => None end end.
Definition states_pre c n x := exists p, contract c n = Some p /\ In x (pre _ p).
Definition states_post c n x := exists p, contract c n = Some p /\ In x (post _ p).
Definition states_raises c n x := exists p, contract c n = Some p /\ In x (raises _ p).
(** [x] is an invariant of class [c], of whatever kind *)
Definition invariant (c : cls) (x : cond) : Prop := match c with Cls _ _ _ invs => exists l, In l invs /\ In x l end.

(** Single inheritance from classes written in Python; [n] is everywhere a function
    that can have a contract. *)
Inductive plain (n : string) : cls -> Prop :=
| plain_cls bases members invs :
    match bases with [] | [_] => True | _ => False end ->
    (forall l, lookup n members = Some l -> written l <> None) ->
    Forall (plain n) bases ->
    plain n (Cls true bases members invs).

(** __special__ names *)
Definition special (n : string) : Prop := (exists m, n = "__" ++ m)%string /\ (exists m, n = m ++ "__")%string.

(** Calls that meet the preconditions meet the postconditions. *)
Definition verified {call result} (pre_holds : cond -> call -> Prop) (post_holds : cond -> call -> result -> Prop)
    (run : call -> result) (k : conds) : Prop :=
  forall a, Forall (fun x => pre_holds x a) (pre _ k) -> Forall (fun x => post_holds x a (run a)) (post _ k).
End S.
