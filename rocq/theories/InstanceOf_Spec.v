(* isinstance in CPython: Objects/abstract.c object_recursive_isinstance, object_isinstance;
   abc.py ABCMeta.__instancecheck__; typing.py _ProtocolMeta.__instancecheck__. *)
From Coq Require Import String.
From Coq Require Import List Bool Arith.
From Verif Require Import Py InstanceOf_Model.
Import ListNotations.

Section Classes.
  Variable mro : nat -> list nat.
  Variable metaclass : nat -> meta.
  Definition is_base (c d : nat) : Prop := In c (mro d).
  Definition is_base_b (c d : nat) : bool := if in_dec Nat.eq_dec c (mro d) then true else false.
  Definition by_type (o : obj) (c : nat) : bool := is_base_b c (o_type o) || is_base_b c (o_class o).
  Definition instance_of (o : obj) (c : nat) : bool :=
    if Nat.eqb (o_type o) c then true
    else match metaclass c with
         | Plain | Hooks None _ => by_type o c
         | Abc check => check (o_class o) || check (o_type o)
         | Protocol members => forallb (fun m => if in_dec string_dec m (o_attrs o) then true else false) members || by_type o c
         | Hooks (Some check) _ => check o
         end.
  Fixpoint instance_of_any (o : obj) (t : types) : bool :=
    match t with
    | One c => instance_of o c
    | Many l => (fix any l := match l with [] => false | t :: l => instance_of_any o t || any l end) l
    end.
  (** An ordinary class: no hooks, or an abstract one that has itself as a subclass *)
  Fixpoint ordinary (t : types) : Prop :=
    match t with
    | One c => match metaclass c with Plain => True | Abc check => check c = true | _ => False end
    | Many l => (fix all l := match l with [] => True | t :: l => ordinary t /\ all l end) l
    end.
  (** issubclass in CPython: Objects/abstract.c object_issubclass.  Tuples are walked in order; the first class that
      does not answer False decides, with its answer or its exception. *)
  Definition asks (d c : nat) : res bool :=
    match metaclass c with
    | Abc check | Hooks _ (Some check) => Ok (check d)
    | Protocol _ => Err TypeError
    | Plain | Hooks _ None => Ok (is_base_b c d)
    end.
  Fixpoint leaves (t : types) : list nat := match t with One c => [c] | Many l => flat_map leaves l end.
  Definition decides (d c : nat) : bool := match asks d c with Ok false => false | _ => true end.
  Definition subclass_answer (d : nat) (t : types) : res bool :=
    match find (decides d) (leaves t) with Some c => asks d c | None => Ok false end.
End Classes.
