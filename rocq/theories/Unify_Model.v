(* Model of crosshair/dynamic_typing.py 54-214: whether a value of one type may be received
   where another type is wanted, and what type variables are then bound to.

   Classes are numbers; issubclass is a parameter.  TypedDicts (134-155) are left out.  Bindings
   that are made before a mismatch is found are dropped with the result, as every caller drops
   them.  Types are compared by structure. *)
From Coq Require Import List Bool Arith.
From Verif Require Import Py.
Import ListNotations.

(** [App c []] is the class itself; [Tup] is Tuple[a, b], [TupVar a] is Tuple[a, ...], [RawTup]
    is tuple; [Fun None r] is Callable[..., r] and [Fun None Any] also Callable; [Dots] is the
    Ellipsis, which turns up as an argument of Tuple[a, ...]. *)
Inductive ty :=
  | Any | Object | Var (n : nat) | Union (l : list ty) | App (c : nat) (l : list ty)
  | Tup (l : list ty) | TupVar (t : ty) | RawTup
  | Fun (a : option (list ty)) (r : ty) | Dots.

Definition cobject := 0.
Definition ctuple := 1.
Definition ccallable := 2.
Definition csequence := 3.

Definition list_eqb {A} (eqb : A -> A -> bool) : list A -> list A -> bool :=
  fix go l l' := match l, l' with
                 | [], [] => true
                 | x :: l, y :: l' => eqb x y && go l l'
                 | _, _ => false
                 end.
Fixpoint ty_eqb (x y : ty) {struct x} : bool :=
  match x, y with
  | Any, Any | Object, Object | RawTup, RawTup | Dots, Dots => true
  | Var n, Var m => Nat.eqb n m
  | Union l, Union l' | Tup l, Tup l' => list_eqb ty_eqb l l'
  | App c l, App d l' => Nat.eqb c d && list_eqb ty_eqb l l'
  | TupVar t, TupVar t' => ty_eqb t t'
  | Fun None r, Fun None r' => ty_eqb r r'
  | Fun (Some a) r, Fun (Some a') r' => list_eqb ty_eqb a a' && ty_eqb r r'
  | _, _ => false
  end.

Definition binds := list (nat * ty).
Fixpoint lookup (b : binds) (n : nat) : option ty :=
  match b with [] => None | (m, t) :: r => if Nat.eqb m n then Some t else lookup r n end.

Section Unify.
  Variable issub : nat -> nat -> bool.

  (** 15-18 origin_of; None is not a class *)
  Definition origin (t : ty) : option nat :=
    match t with
    | Object => Some cobject
    | App c _ => Some c
    | Tup _ | TupVar _ | RawTup => Some ctuple
    | Fun _ _ => Some ccallable
    | Any | Var _ | Union _ | Dots => None
    end.
  (** issubclass with its TypeErrors *)
  Definition issubclass (a b : option nat) : res bool :=
    match a, b with Some c, Some d => Ok (issub c d) | _, _ => Err TypeError end.

  Definition get (b : binds) (t : ty) : ty :=
    match t with Var n => match lookup b n with Some t' => t' | None => t end | _ => t end.
  (** getattr(t, "__args__", (object, ...)) of a tuple type *)
  Definition tuple_args (t : ty) : list ty :=
    match t with Tup l => l | TupVar a => [a; Dots] | _ => [Object; Dots] end.
  (** len(set(args)) <= 1 *)
  Definition uniform (l : list ty) : bool :=
    match l with [] => true | a :: r => forallb (ty_eqb a) r end.
  Definition is_dots (t : ty) : bool := match t with Dots => true | _ => false end.
  Definition variadic (l : list ty) : bool :=
    match l with [_; Dots] => true | _ => false end.
  (** 182-193 arg_getter, for types that are not wanted as callables *)
  Definition args_of (t : ty) : list ty :=
    match t with
    | App c [] => if issub c ccallable then [Dots; Any] else []
    | App _ l | Tup l => l
    | TupVar a => [a; Dots]
    | Fun None r => [Dots; r]
    | Fun (Some _) r => [Dots; r] (* the list of arguments: no class but Callable takes it *)
    | _ => []
    end.
  (** 182-199 arguments and result of what is wanted as a callable *)
  Definition call_parts (t : ty) : res (option (list ty) * ty) :=
    match t with
    | Fun a r => Ok (a, r)
    | App c [] => Ok (None, Any)
    | _ => Err ValueError
    end.

  Section Rec.
    (** unify itself; None is False *)
    Variable unify : binds -> ty -> ty -> res (option binds).

    Fixpoint unify_list (b : binds) (l l' : list ty) : res (option binds) :=
      match l, l' with
      | v :: l, r :: l' =>
          bind (unify b v r) (fun o => match o with Some b => unify_list b l l' | None => Ok None end)
      | _, _ => Ok (Some b)
      end.
    (** 103-111 each member of a union of values; what is bound is dropped *)
    Fixpoint unify_all (b : binds) (l : list ty) (r : ty) : res (option binds) :=
      match l with
      | [] => Ok (Some b)
      | v :: l => bind (unify b v r) (fun o => match o with Some _ => unify_all b l r | None => Ok None end)
      end.
    (** 112-119 the first member that fits *)
    Fixpoint unify_any (b : binds) (v : ty) (l : list ty) : res (option binds) :=
      match l with
      | [] => Ok None
      | r :: l => bind (unify b v r) (fun o => match o with Some b' => Ok (Some b') | None => unify_any b v l end)
      end.
    (** 54-67 unify_callable_args: the roles are exchanged *)
    Definition unify_callable_args (b : binds) (va ra : option (list ty)) : res (option binds) :=
      match va, ra with
      | Some vl, Some rl => if Nat.eqb (length vl) (length rl) then unify_list b rl vl else Ok None
      | _, _ => Ok (Some b)
      end.

    (** 180-212 classes; [vorigin] is that of the type before 157-178 replaced it *)
    Definition unify_classes (b : binds) (vorigin : option nat) (v r : ty) : res (option binds) :=
      bind (issubclass vorigin (origin r)) (fun ok =>
        if negb ok then Ok None
        else
          bind (issubclass (origin r) (Some ccallable)) (fun call =>
            if call then
              bind (call_parts v) (fun '(va, vr) =>
                bind (call_parts r) (fun '(ra, rr) =>
                  bind (unify b vr rr) (fun o =>
                    match o with Some b => unify_callable_args b va ra | None => Ok None end)))
            else
              let vargs := args_of v in
              let rargs := args_of r in
              if Nat.eqb (length vargs) (length rargs) then unify_list b vargs rargs
              else match vargs with
                   | [] => unify_list b (map (fun _ => Object) rargs) rargs
                   | _ => Ok None
                   end)).

    (** 169-178 a tuple is wanted *)
    Definition unify_to_tuple (b : binds) (vorigin : option nat) (v r : ty) : res (option binds) :=
      match origin r with
      | Some c =>
          if Nat.eqb c ctuple && variadic (tuple_args r) then
            bind (unify b v (App csequence [hd Object (tuple_args r)])) (fun o =>
              match o with Some b' => Ok (Some b') | None => unify_classes b vorigin RawTup r end)
          else unify_classes b vorigin v r
      | None => unify_classes b vorigin v r
      end.
    (** 157-168 a tuple is given *)
    Definition unify_from_tuple (b : binds) (v r : ty) : res (option binds) :=
      let vorigin := origin v in
      match vorigin with
      | Some c =>
          if Nat.eqb c ctuple && (variadic (tuple_args v) || uniform (tuple_args v)) then
            bind (unify b (App csequence [hd Object (tuple_args v)]) r) (fun o =>
              match o with
              | Some b' => Ok (Some b')
              | None =>
                  match rev (tuple_args v) with
                  | [] => Err IndexError
                  | a :: _ => unify_to_tuple b vorigin (if is_dots a then RawTup else v) r
                  end
              end)
          else unify_to_tuple b vorigin v r
      | None => unify_to_tuple b vorigin v r
      end.

    (** 95-132 *)
    Definition unify_step (b : binds) (v r : ty) : res (option binds) :=
      let v := get b v in
      let r := get b r in
      match v, r with
      | Any, _ | _, Any => Ok (Some b)
      | Union l, _ => unify_all b l r
      | _, Union l => unify_any b v l
      | _, Var n => match lookup b n with Some _ => Err AssertionError | None => Ok (Some ((n, v) :: b)) end
      | Var _, _ => unify_from_tuple b Object r
      | _, _ => unify_from_tuple b v r
      end.
  End Rec.

  Fixpoint unify (fuel : nat) (b : binds) (v r : ty) : res (option binds) :=
    match fuel with O => Err OutOfFuel | S f => unify_step (unify f) b v r end.
End Unify.
