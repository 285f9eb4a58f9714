(** What a Python range is (library reference, "Ranges"): for a positive step, the
    contents are r[i] = start + step*i where i >= 0 and r[i] < stop; for a negative
    step the condition is r[i] > stop. *)
From Coq Require Import ZArith List Bool.
From Verif Require Import Py.
Import ListNotations.
Open Scope Z_scope.

Definition before (step x stop : Z) : Prop := if 0 <? step then x < stop else stop < x.

(** [l] is list(range(start, stop, step)). *)
Definition is_range (start stop step : Z) (l : list Z) : Prop :=
  (forall i : nat, (i < length l)%nat ->
     nth_error l i = Some (start + step * Z.of_nat i) /\
     before step (start + step * Z.of_nat i) stop) /\
  ~ before step (start + step * Z.of_nat (length l)) stop.

(** Indexing and searching of a Python sequence, given its contents. *)
Definition py_getitem {A} (l : list A) (i : Z) : res A :=
  let n := Z.of_nat (length l) in
  let j := if i <? 0 then i + n else i in
  if (j <? 0) || (n <=? j) then Err IndexError
  else match nth_error l (Z.to_nat j) with Some x => Ok x | None => Err IndexError end.

Fixpoint index_from (l : list Z) (x k : Z) : res Z :=
  match l with
  | [] => Err ValueError
  | y :: r => if y =? x then Ok k else index_from r x (k + 1)
  end.
Definition py_index (l : list Z) (x : Z) : res Z := index_from l x 0.
Definition py_count (l : list Z) (x : Z) : Z := Z.of_nat (length (filter (Z.eqb x) l)).
Definition py_contains (l : list Z) (x : Z) : bool := existsb (Z.eqb x) l.

Fixpoint list_eqb (a b : list Z) : bool :=
  match a, b with
  | [], [] => true
  | x :: a, y :: b => (x =? y) && list_eqb a b
  | _, _ => false
  end.
