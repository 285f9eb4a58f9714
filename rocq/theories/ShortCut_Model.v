(* Model of crosshair/core.py 1679-1713 (whether a value counts as immutable), 1738-1803 (whether
   a call may be skipped) and 1805-1837 (skipping it: a new value is returned, and at the end of
   the path it is compared with what the function returns for the arguments that were kept).

   Values are atoms (all the types of ATOMIC_IMMUTABLE_TYPES and symbolics that say they are
   immutable), tuples, and references to objects that can be changed: lists (no hash), instances
   with object's hash, and instances whose own __hash__ hashes their fields one by one.  What can
   be seen of a value is a tree of a given depth.  deepcopyext (C77) gives a copy that nobody else
   has, which is its tree.  The function is a parameter: it returns for arguments what it returns
   for their trees. *)
From Coq Require Import ZArith List Bool.
Import ListNotations.

Inductive hashing := HNone | HObject | HOwn.
Inductive value := Atom (z : Z) | Tup (l : list value) | Ref (n : nat).
Record obj := Obj { o_hash : hashing; o_fields : list value }.
Definition heap := nat -> obj.
Inductive tree := TAtom (z : Z) | TTup (l : list tree) | TObj (k : hashing) (l : list tree) | TCut.

Fixpoint view (d : nat) (h : heap) (v : value) : tree :=
  match d with
  | O => TCut
  | S d => match v with
           | Atom z => TAtom z
           | Tup l => TTup (map (view d h) l)
           | Ref n => TObj (o_hash (h n)) (map (view d h) (o_fields (h n)))
           end
  end.

(** 1679-1694 _mutability_testing_hash, when hash() is called in Python code ([python]), and the
    interpreter's own hash, which tuples use for their items; false is TypeError.  Deeper than
    [d] nothing is hashable: the recursion limit. *)
Fixpoint hashes (d : nat) (python : bool) (h : heap) (v : value) : bool :=
  match d with
  | O => false
  | S d => match v with
           | Atom _ => true
           | Tup l => forallb (hashes d false h) l
           | Ref n => match o_hash (h n) with
                      | HNone => false
                      | HObject => negb python
                      | HOwn => forallb (hashes d true h) (o_fields (h n))
                      end
           end
  end.
(** 1696-1713 *)
Definition is_deeply_immutable (d : nat) (h : heap) (v : value) : bool := hashes d true h v.

(** 1756-1803 consider_shortcircuit: whether the call is skipped.  [mutable_args] is what the
    contract says the function changes (None: nothing is said), [generic] whether the return
    type has type variables, [symbolic] and [unifies] say for each argument whether it is
    symbolic and fits the annotation; [fork] is the path's decision.  None is
    CrosshairUnsupported. *)
Fixpoint deduce (allow : bool) (args : list (bool * bool)) : option bool :=
  match args with
  | [] => Some true
  | (symbolic, unifies) :: r =>
      if allow && negb symbolic then Some false
      else if unifies then deduce allow r
      else if allow then Some false else None
  end.
Definition consider (allow : bool) (mutable_args : option (list nat)) (generic : bool) (args : list (bool * bool)) (fork : bool) : option bool :=
  if allow && match mutable_args with Some [] => false | _ => true end then Some false
  else match (if generic then deduce allow args else Some true) with
       | Some true => Some (if allow then fork else true)
       | o => o
       end.

(** 1813-1820 the arguments that are kept: the same value or a copy *)
Inductive kept := Same (v : value) | Private (t : tree).
Definition keep (d : nat) (h : heap) (v : value) : kept :=
  if is_deeply_immutable d h v then Same v else Private (view d h v).
Definition look (d : nat) (h : heap) (k : kept) : tree :=
  match k with Same v => view d h v | Private t => t end.
(** 1829-1832 reconciled: [h1] is the heap at the end of the path *)
Definition reconciled (d : nat) (f : list tree -> tree) (h1 : heap) (retval : value) (args : list kept) : Prop :=
  view d h1 retval = f (map (look d h1) args).
