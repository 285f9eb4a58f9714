(* What comprehensions, membership, [not] and [is] mean in Python. *)
From Coq Require Import ZArith List Bool Arith.
From Verif Require Import Py Opcodes_Model.
Import ListNotations.

Section Spec.
  Variables K W : Type.
  (** being the same key, and hashability *)
  Variable key : K -> K -> bool.
  Variable hashable : K -> bool.

  (** A dictionary comprehension: a key that is there keeps its place and gets the new value; a
      new key comes last; an unhashable key fails. *)
  Definition assign (d : list (K * W)) (k : K) (v : W) : list (K * W) :=
    if existsb (fun e => key (fst e) k) d
    then map (fun e => if key (fst e) k then (fst e, v) else e) d
    else d ++ [(k, v)].
  Fixpoint py_dict (l : list (K * W)) (d : list (K * W)) : res (list (K * W)) :=
    match l with
    | [] => Ok d
    | (k, v) :: r => if hashable k then py_dict r (assign d k v) else Err TypeError
    end.
  (** A set comprehension: the items that differ from those before. *)
  Fixpoint py_set (l : list K) (s : list K) : res (list K) :=
    match l with
    | [] => Ok s
    | k :: r => if hashable k then py_set r (if existsb (key k) s then s else s ++ [k]) else Err TypeError
    end.
  Definition py_in (l : list K) (x : K) : res bool :=
    if hashable x then Ok (existsb (key x) l) else Err TypeError.
End Spec.

(** A result on top of the stack below [n] iterators, in either representation. *)
Definition dict_below {K W} (n : nat) (r : res (list (K * W))) (s : res (list (cell K W))) : Prop :=
  match r with
  | Ok d => exists c, (c = RealDict K W d \/ c = Simple K W d) /\ s = Ok (repeat (Junk K W) n ++ [c])
  | Err e => s = Err e
  end.
Definition set_below {K W} (n : nat) (r : res (list K)) (s : res (list (cell K W))) : Prop :=
  match r with
  | Ok l => exists c, (c = RealSet K W l \/ c = Shell K W l) /\ s = Ok (repeat (Junk K W) n ++ [c])
  | Err e => s = Err e
  end.

(** Truth: __bool__ if there is one; otherwise whether the length is not zero; otherwise true. *)
Definition py_not (t : thing) : res bool :=
  match t with
  | Thing _ (Some (Ok v)) _ => Ok (negb v)
  | Thing _ (Some (Err e)) _ => Err e
  | Thing _ None (Some (Ok n)) => Ok (match n with O => true | S _ => false end)
  | Thing _ None (Some (Err e)) => Err e
  | Thing _ None None => Ok false
  end.
(** What an operand stands for: there are two booleans and one object for each type. *)
Inductive identity := TheBool (v : bool) | TheType (t : nat) | TheObject (id : nat).
Definition stands_for (o : operand) : identity :=
  match o with
  | SymBool _ v | RealBool v => TheBool v
  | SymType _ t | RealType t => TheType t
  | Other id => TheObject id
  end.
