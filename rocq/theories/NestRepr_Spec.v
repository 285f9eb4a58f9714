(** repr of containers in CPython: a container that is being printed is printed as an
    ellipsis inside itself (list_repr, tuplerepr, dict_repr, set_repr). *)
From Coq Require Import String List Bool Arith.
From Verif Require NestRepr_Model.
Import ListNotations.
Open Scope string_scope.
Open Scope list_scope.
Import NestRepr_Model (obj, Atom, OList, OTuple, ODict, OSet, OFrozen, heap, outcome, Text, TooDeep).

(** "a, b, c"; no text if some item has none. *)
Fixpoint listed (l : list outcome) : outcome :=
  match l with
  | [] => Text ""
  | [x] => x
  | x :: r =>
      match x, listed r with
      | Text a, Text b => Text (a ++ ", " ++ b)
      | _, _ => TooDeep
      end
  end.
Definition within (a : string) (x : outcome) (b : string) : outcome :=
  match x with Text s => Text (a ++ s ++ b) | TooDeep => TooDeep end.
Definition pair (k v : outcome) : outcome :=
  match k, v with Text a, Text b => Text (a ++ ": " ++ b) | _, _ => TooDeep end.
Definition class_name (plain : string) (derived : option string) : string :=
  match derived with Some n => n | None => plain end.

Section Repr.
Variable h : heap.
Fixpoint repr (depth : nat) (printing : list nat) (i : nat) : outcome :=
  match depth with
  | O => TooDeep
  | S n =>
      let inner := repr n (i :: printing) in
      let again := existsb (Nat.eqb i) printing in
      match h i with
      | Atom s => Text s
      | OList l => if again then Text "[...]" else within "[" (listed (map inner l)) "]"
      | OTuple l =>
          if again then Text "(...)"
          else match l with
               | [x] => within "(" (inner x) ",)"
               | _ => within "(" (listed (map inner l)) ")"
               end
      | ODict l =>
          if again then Text "{...}"
          else within "{" (listed (map (fun kv => pair (inner (fst kv)) (inner (snd kv))) l)) "}"
      | OSet c l =>
          let name := class_name "set" c in
          if again then Text (name ++ "(...)")
          else match l, c with
               | [], _ => Text (name ++ "()")
               | _, None => within "{" (listed (map inner l)) "}"
               | _, Some _ => within (name ++ "({") (listed (map inner l)) "})"
               end
      | OFrozen c l =>
          let name := class_name "frozenset" c in
          if again then Text (name ++ "(...)")
          else match l with
               | [] => Text (name ++ "()")
               | _ => within (name ++ "({") (listed (map inner l)) "})"
               end
      end
  end.

(** The objects a container holds. *)
Definition holds (i j : nat) : Prop :=
  match h i with
  | Atom _ => False
  | OList l | OTuple l | OSet _ l | OFrozen _ l => In j l
  | ODict l => exists kv, In kv l /\ (j = fst kv \/ j = snd kv)
  end.
(** Neither a set of a derived class nor a tuple of one item. *)
Definition plain (i : nat) : Prop :=
  match h i with
  | OTuple [_] => False
  | OSet (Some _) _ | OFrozen (Some _) _ => False
  | _ => True
  end.
(** Reached by holding, in one step or more. *)
Inductive reaches : nat -> nat -> Prop :=
| reach_one : forall i j, holds i j -> reaches i j
| reach_more : forall i j k, holds i j -> reaches j k -> reaches i k.
End Repr.
