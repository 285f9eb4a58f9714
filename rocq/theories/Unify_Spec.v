(* When a value of one type may be received where another is wanted. *)
From Coq Require Import List Bool Arith.
From Verif Require Import Py Unify_Model.
Import ListNotations.

Section Sub.
  Variable issub : nat -> nat -> bool.

  (** Subtyping, with Any fitting everywhere.  Arguments of generic classes are covariant, those
      of a class with as many parameters as its superclass being those of the superclass; of
      a class without arguments nothing is known about the contents. *)
  Inductive sub : ty -> ty -> Prop :=
    | sub_any_l : forall r, sub Any r
    | sub_any_r : forall v, sub v Any
    | sub_object : forall v, sub v Object
    | sub_union_l : forall l r, (forall v, In v l -> sub v r) -> sub (Union l) r
    | sub_union_r : forall v r l, In r l -> sub v r -> sub v (Union l)
    | sub_app : forall c d l l', issub c d = true -> length l = length l' ->
        (forall v r, In (v, r) (combine l l') -> sub v r) -> sub (App c l) (App d l')
    | sub_class : forall c d l, issub c d = true -> sub (App c l) (App d [])
    | sub_bare : forall c d l, issub c d = true -> (forall r, In r l -> sub Object r) -> sub (App c []) (App d l)
    | sub_tup : forall l l', length l = length l' -> (forall v r, In (v, r) (combine l l') -> sub v r) -> sub (Tup l) (Tup l')
    | sub_tup_var : forall l r, (forall v, In v l -> sub v r) -> sub (Tup l) (TupVar r)
    | sub_tup_raw : forall l, sub (Tup l) RawTup
    | sub_var_var : forall v r, sub v r -> sub (TupVar v) (TupVar r)
    | sub_var_raw : forall v, sub (TupVar v) RawTup
    | sub_raw_var : forall r, sub Object r -> sub RawTup (TupVar r)
    | sub_raw_raw : sub RawTup RawTup
    | sub_tup_class : forall l d, issub ctuple d = true -> sub (Tup l) (App d [])
    | sub_var_class : forall v d, issub ctuple d = true -> sub (TupVar v) (App d [])
    | sub_raw_class : forall d, issub ctuple d = true -> sub RawTup (App d [])
    | sub_tup_app : forall l d r, issub ctuple d = true -> (forall v, In v l -> sub v r) -> sub (Tup l) (App d [r])
    | sub_var_app : forall v d r, issub ctuple d = true -> sub v r -> sub (TupVar v) (App d [r])
    | sub_raw_app : forall d r, issub ctuple d = true -> sub Object r -> sub RawTup (App d [r])
    | sub_fun : forall a a' v r, sub v r ->
        (forall l l', a = Some l -> a' = Some l' ->
          length l = length l' /\ forall x y, In (x, y) (combine l' l) -> sub x y) ->
        sub (Fun a v) (Fun a' r)
    | sub_callable : forall c a r, issub c ccallable = true -> sub (App c []) (Fun a r)
    | sub_fun_class : forall a v d, issub ccallable d = true -> sub (Fun a v) (App d []).
End Sub.

(** Type variables replaced by what they are bound to. *)
Fixpoint subst (b : binds) (t : ty) : ty :=
  match t with
  | Var n => match lookup b n with Some t' => t' | None => Var n end
  | Union l => Union (map (subst b) l)
  | App c l => App c (map (subst b) l)
  | Tup l => Tup (map (subst b) l)
  | TupVar t => TupVar (subst b t)
  | Fun a r => Fun (match a with Some l => Some (map (subst b) l) | None => None end) (subst b r)
  | t => t
  end.

(** No type variables; no unions; none of Tuple[a, ...] and tuple. *)
Fixpoint closed (t : ty) : bool :=
  match t with
  | Var _ => false
  | Union l | App _ l | Tup l => forallb closed l
  | TupVar t => closed t
  | Fun a r => match a with Some l => forallb closed l | None => true end && closed r
  | _ => true
  end.
Fixpoint union_free (t : ty) : bool :=
  match t with
  | Union _ => false
  | App _ l | Tup l => forallb union_free l
  | TupVar t => union_free t
  | Fun a r => match a with Some l => forallb union_free l | None => true end && union_free r
  | _ => true
  end.
Fixpoint sized_tuples (t : ty) : bool :=
  match t with
  | TupVar _ | RawTup => false
  | Union l | App _ l | Tup l => forallb sized_tuples l
  | Fun a r => match a with Some l => forallb sized_tuples l | None => true end && sized_tuples r
  | _ => true
  end.
(** No tuple types where something is wanted ([wanted] says whether the type itself is) *)
Fixpoint no_tuple_wanted (wanted : bool) (t : ty) : bool :=
  match t with
  | Tup l => negb wanted && forallb (no_tuple_wanted wanted) l
  | TupVar t => negb wanted && no_tuple_wanted wanted t
  | RawTup => negb wanted
  | Union l | App _ l => forallb (no_tuple_wanted wanted) l
  | Fun a r =>
      match a with Some l => forallb (no_tuple_wanted (negb wanted)) l | None => true end && no_tuple_wanted wanted r
  | _ => true
  end.
(** Where something is given, no union has type variables. *)
Fixpoint unions_ok (wanted : bool) (t : ty) : bool :=
  match t with
  | Union l => if wanted then forallb (unions_ok wanted) l else forallb closed l
  | App _ l | Tup l => forallb (unions_ok wanted) l
  | TupVar t => unions_ok wanted t
  | Fun a r =>
      match a with Some l => forallb (unions_ok (negb wanted)) l | None => true end && unions_ok wanted r
  | _ => true
  end.
(** Types as they can be written: a class has no arguments or as many as it has parameters;
    object, tuple and Callable are not written as classes; no Ellipsis. *)
Fixpoint written (arity : nat -> nat) (t : ty) : bool :=
  match t with
  | App c l => Nat.ltb 2 c && (Nat.eqb (length l) 0 || Nat.eqb (length l) (arity c)) && forallb (written arity) l
  | Union l | Tup l => forallb (written arity) l
  | TupVar t => written arity t
  | Fun a r => match a with Some l => forallb (written arity) l | None => true end && written arity r
  | Dots => false
  | _ => true
  end.

(** What is known of Python's classes. *)
Definition python_classes (issub : nat -> nat -> bool) (arity : nat -> nat) : Prop :=
  (forall a b c, issub a b = true -> issub b c = true -> issub a c = true) /\
  issub ctuple csequence = true /\ arity csequence = 1 /\
  (forall d, issub cobject d = true -> d = cobject) /\
  (forall c, issub c ctuple = true -> c = ctuple) /\
  issub ctuple ccallable = false /\ issub csequence ccallable = false /\ issub ccallable ccallable = true /\
  (forall d, issub ccallable d = true -> d = cobject \/ issub d ccallable = true) /\
  (forall c d, issub c ccallable = true -> issub c d = true -> arity d <> 2) /\
  (forall d, issub ctuple d = true -> arity d <= 1).
