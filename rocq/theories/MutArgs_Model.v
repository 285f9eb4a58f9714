(** Model of the check that a function changes only the arguments named in "post[...]": crosshair/core.py attempt_call
    1606-1622.  The arguments before the call (deep copies keep the object of a float) and after it are values:
    numbers, booleans, not-a-numbers (each an object of its own) and lists. *)
From Coq Require Import ZArith List Bool.
Import ListNotations.

Inductive value := Num (z : Z) | Boolean (b : bool) | NaN (object : nat) | Lst (l : list value).
Definition int_of (b : bool) : Z := if b then 1%Z else 0%Z.

(** Python's ==; within lists the same object is taken to be equal *)
Fixpoint py_eq (a b : value) : bool :=
  match a, b with
  | Num a, Num b => Z.eqb a b
  | Boolean a, Num b => Z.eqb (int_of a) b
  | Num a, Boolean b => Z.eqb a (int_of b)
  | Boolean a, Boolean b => Bool.eqb a b
  | Lst a, Lst b =>
      (fix eqs (a b : list value) {struct a} : bool :=
         match a, b with
         | [], [] => true
         | x :: a, y :: b =>
             (match x, y with NaN i, NaN j => Nat.eqb i j | _, _ => py_eq x y end) && eqs a b
         | _, _ => false
         end) a b
  | _, _ => false
  end.
(** 1606-1622: the first argument reported *)
Fixpoint changed_argument (mutable : option (list Z)) (old new : list (Z * value)) : option Z :=
  match new with
  | [] => None
  | (name, v) :: new =>
      let reported :=
        match mutable with
        | None => false
        | Some m =>
            if existsb (Z.eqb name) m then false
            else match find (fun p => Z.eqb (fst p) name) old with
                 | Some (_, o) => negb (py_eq o v)
                 | None => false
                 end
        end in
      if reported then Some name else changed_argument mutable old new
  end.
