(** What a call of a function with a contract means.  [K f] says that calls of f are not
    checked here: the code is part of checking f's own contract (or checking is off). *)
From Coq Require Import List Bool Arith.
From Verif Require Import Enforce_Model.
Import ListNotations.

Section Spec.
Variables V store old : Type.
Variable truth : V -> bool.
Notation code := (code V store). Notation outcome := (outcome V). Notation contract := (contract V store old).
Variable body : nat -> V -> code.
Variable conditions : nat -> option contract.
Variable bind : nat -> V -> option V.
Variable copy_args : V -> store -> old.

Definition unless (K : nat -> Prop) (f : nat) : nat -> Prop := fun g => g = f \/ K g.

(** [does K s c t o s']: run in state s, the code c does the events t, and ends in o and s'. *)
Inductive does : (nat -> Prop) -> store -> code -> list event -> outcome -> store -> Prop :=
| does_done K s o : does K s (Done V store o) [] o s
| does_step K s u k t o s' : does K (u s) (k s) t o s' -> does K s (Step V store u k) t o s'
| does_call K s f a k t o s1 t' o' s' : calls K s f a t o s1 -> does K s1 (k o) t' o' s' ->
    does K s (Call V store f a k) (t ++ t') o' s'
with calls : (nat -> Prop) -> store -> nat -> V -> list event -> outcome -> store -> Prop :=
(** no contract, or not checked here: just the body *)
| calls_plain K s f a t o s' : conditions f = None \/ K f -> does K s (body f a) t o s' ->
    calls K s f a (Enter f :: t) o s'
(** arguments that do not fit *)
| calls_bind K s f a c : conditions f = Some c -> ~ K f -> bind f a = None ->
    calls K s f a [Checking f; Checked f] (TypeErr V) s
(** preconditions come first; if one is false or raises, the body does not run *)
| calls_pre K s f a c args t o s' : conditions f = Some c -> ~ K f -> bind f a = Some args ->
    pres (unless K f) f 0 (pre _ _ _ c) args s t (Some o) s' ->
    calls K s f a (Checking f :: t ++ [Checked f]) o s'
(** an exception of the body is passed on; postconditions do not run *)
| calls_raises K s f a c args t s1 t' o s' : conditions f = Some c -> ~ K f -> bind f a = Some args ->
    pres (unless K f) f 0 (pre _ _ _ c) args s t None s1 ->
    does K s1 (body f a) t' o s' -> (forall v, o <> Returned V v) ->
    calls K s f a (Checking f :: t ++ [Checked f; Enter f] ++ t') o s'
(** then the postconditions see the arguments, their copies from before and the result *)
| calls_post K s f a c args t s1 t' ret s2 t'' r s' : conditions f = Some c -> ~ K f -> bind f a = Some args ->
    pres (unless K f) f 0 (pre _ _ _ c) args s t None s1 ->
    does K s1 (body f a) t' (Returned V ret) s2 ->
    posts (unless K f) f 0 (post _ _ _ c) args (copy_args args s) ret s2 t'' r s' ->
    calls K s f a (Checking f :: t ++ [Checked f; Enter f] ++ t' ++ [Checking f] ++ t'' ++ [Checked f])
      (match r with None => Returned V ret | Some e => e end) s'
(** conditions are evaluated in order up to the first that is false or raises *)
with pres : (nat -> Prop) -> nat -> nat -> list (option (V -> code)) -> V -> store -> list event -> option outcome -> store -> Prop :=
| pres_nil K f i a s : pres K f i [] a s [] None s
| pres_skip K f i l a s t r s' : pres K f (S i) l a s t r s' -> pres K f i (None :: l) a s t r s'
| pres_true K f i p l a s t v s1 t' r s' : does K s (p a) t (Returned V v) s1 -> truth v = true ->
    pres K f (S i) l a s1 t' r s' -> pres K f i (Some p :: l) a s (EvalPre f i :: t ++ t') r s'
| pres_false K f i p l a s t v s' : does K s (p a) t (Returned V v) s' -> truth v = false ->
    pres K f i (Some p :: l) a s (EvalPre f i :: t) (Some (PreconditionFailed V f)) s'
| pres_raise K f i p l a s t o s' : does K s (p a) t o s' -> (forall v, o <> Returned V v) ->
    pres K f i (Some p :: l) a s (EvalPre f i :: t) (Some o) s'
with posts : (nat -> Prop) -> nat -> nat -> list (option (V -> old -> V -> code)) -> V -> old -> V -> store -> list event -> option outcome -> store -> Prop :=
| posts_nil K f i a b x s : posts K f i [] a b x s [] None s
| posts_skip K f i l a b x s t r s' : posts K f (S i) l a b x s t r s' -> posts K f i (None :: l) a b x s t r s'
| posts_true K f i p l a b x s t v s1 t' r s' : does K s (p a b x) t (Returned V v) s1 -> truth v = true ->
    posts K f (S i) l a b x s1 t' r s' -> posts K f i (Some p :: l) a b x s (EvalPost f i :: t ++ t') r s'
| posts_false K f i p l a b x s t v s' : does K s (p a b x) t (Returned V v) s' -> truth v = false ->
    posts K f i (Some p :: l) a b x s (EvalPost f i :: t) (Some (PostconditionFailed V f)) s'
| posts_raise K f i p l a b x s t o s' : does K s (p a b x) t o s' -> (forall v, o <> Returned V v) ->
    posts K f i (Some p :: l) a b x s (EvalPost f i :: t) (Some o) s'.
End Spec.

(** [checks open t]: going through the events t with the checks [open] in progress, checks open
    and close as brackets, and no function's contract is checked while it is being checked
    already; the checks in progress at the end. *)
Fixpoint checks (open : list nat) (t : list event) : option (list nat) :=
  match t with
  | [] => Some open
  | Checking f :: t => if existsb (Nat.eqb f) open then None else checks (f :: open) t
  | Checked f :: t => match open with g :: open => if f =? g then checks open t else None | [] => None end
  | _ :: t => checks open t
  end.
