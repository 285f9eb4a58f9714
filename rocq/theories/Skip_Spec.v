(** What a call does when nothing is skipped and all contracts are checked; and the conditions under
    which skipping is meant to be harmless. *)
From Coq Require Import List Bool PeanoNat.
From Verif Require Import Py Skip_Model.
Import ListNotations.

Section Spec.
Variable V : Type.
Variable dflt : V.
Variable fns : nat -> fn_ V.
Definition at_ (h : list V) (x : nat) : V := nth x h dflt.
Definition put (h : list V) (x : nat) (v : V) : list V := if x <? length h then firstn x h ++ v :: skipn (S x) h else h.

(** [ends p h o]: program [p] on heap [h] ends with [o] *)
Inductive ends : prog V -> list V -> outcome V -> Prop :=
| ends_ret : forall v h, ends (Ret v) h (Returns v)
| ends_raise : forall e h, ends (Raise e) h (Raises e)
| ends_look : forall x k h o, ends (k (at_ h x)) h o -> ends (Look x k) h o
| ends_update : forall x g k h o, ends k (put h x (g (at_ h x))) o -> ends (Update x g k) h o
| ends_pre : forall f args k h, pre (fns f) (map (at_ h) args) = false -> ends (Call f args k) h PreconditionFailed
| ends_call : forall f args k h v o, pre (fns f) (map (at_ h) args) = true ->
    ends (body (fns f)) (map (at_ h) args) (Returns v) -> post (fns f) (map (at_ h) args) v = true ->
    ends (k (Ok (length h))) (h ++ [v]) o -> ends (Call f args k) h o
| ends_post : forall f args k h v, pre (fns f) (map (at_ h) args) = true ->
    ends (body (fns f)) (map (at_ h) args) (Returns v) -> post (fns f) (map (at_ h) args) v = false ->
    ends (Call f args k) h PostconditionFailed
| ends_catch : forall f args k h e o, pre (fns f) (map (at_ h) args) = true ->
    ends (body (fns f)) (map (at_ h) args) (Raises e) -> ends (k (Err e)) h o -> ends (Call f args k) h o
| ends_inner : forall f args k h o, pre (fns f) (map (at_ h) args) = true ->
    ends (body (fns f)) (map (at_ h) args) o -> o = PreconditionFailed \/ o = PostconditionFailed -> ends (Call f args k) h o.

(** the same without contracts: what Python does *)
Inductive does : prog V -> list V -> res V -> Prop :=
| does_ret : forall v h, does (Ret v) h (Ok v)
| does_raise : forall e h, does (Raise e) h (Err e)
| does_look : forall x k h r, does (k (at_ h x)) h r -> does (Look x k) h r
| does_update : forall x g k h r, does k (put h x (g (at_ h x))) r -> does (Update x g k) h r
| does_call : forall f args k h v r, does (body (fns f)) (map (at_ h) args) (Ok v) ->
    does (k (Ok (length h))) (h ++ [v]) r -> does (Call f args k) h r
| does_catch : forall f args k h e r, does (body (fns f)) (map (at_ h) args) (Err e) ->
    does (k (Err e)) h r -> does (Call f args k) h r.

(** a program that changes only the first [n] objects: none that a call returned *)
Inductive keeps (n : nat) : prog V -> Prop :=
| keeps_ret : forall v, keeps n (Ret v)
| keeps_raise : forall e, keeps n (Raise e)
| keeps_look : forall x k, (forall v, keeps n (k v)) -> keeps n (Look x k)
| keeps_update : forall x g k, x < n -> keeps n k -> keeps n (Update x g k)
| keeps_call : forall f args k, (forall r, keeps n (k r)) -> keeps n (Call f args k).

(** a function that, on arguments that satisfy its precondition, returns and satisfies its postcondition *)
Definition honours (f : fn_ V) : Prop :=
  forall vs, pre f vs = true -> exists v, ends (body f) vs (Returns v) /\ post f vs v = true.

(** whether an outcome breaks the contract of the function under analysis *)
Definition wrong (good : V -> bool) (o : outcome V) : Prop :=
  match o with Returns v => good v = false | Raises _ => True | PreconditionFailed => True | PostconditionFailed => False end.
End Spec.
