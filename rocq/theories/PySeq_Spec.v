(** Python's list/tuple operations, as documented in the library reference and as
    CPython implements them (Objects/sliceobject.c, Objects/listobject.c). *)
From Coq Require Import ZArith List Bool.
From Verif Require Import Py Range_Spec.
Import ListNotations.
Open Scope Z_scope.

(** A slice object; [None] is Python's None. *)
Record slice := mkSl { sl_start : option Z; sl_stop : option Z; sl_step : option Z }.

(** slice.indices(n): defaults, negative values count from the end, clamping. *)
Definition adjust (n step dflt : Z) (x : option Z) : Z :=
  match x with
  | None => dflt
  | Some i =>
      let i := if i <? 0 then i + n else i in
      if i <? 0 then (if step <? 0 then -1 else 0)
      else if n <=? i then (if step <? 0 then n - 1 else n)
      else i
  end.
Definition py_indices (sl : slice) (n : Z) : res (Z * Z * Z) :=
  let step := match sl_step sl with None => 1 | Some s => s end in
  if step =? 0 then Err ValueError
  else Ok (adjust n step (if step <? 0 then n - 1 else 0) (sl_start sl),
           adjust n step (if step <? 0 then -1 else n) (sl_stop sl),
           step).

(** list(range(a, b, s)), s <> 0 *)
Definition range_count (a b s : Z) : Z :=
  if 0 <? s then Z.max 0 ((b - a + s - 1) / s) else Z.max 0 ((a - b - s - 1) / - s).
Definition py_range (a b s : Z) : list Z :=
  map (fun k => a + s * Z.of_nat k) (seq 0 (Z.to_nat (range_count a b s))).

(** The items of [l] at the given positions. *)
Definition pick {A} (l : list A) (idx : list Z) : list A :=
  flat_map (fun i => match nth_error l (Z.to_nat i) with Some x => [x] | None => [] end) idx.

(** l[sl]: the items at the positions range( *sl.indices(len(l)) ). *)
Definition py_slice {A} (l : list A) (sl : slice) : res (list A) :=
  do t <- py_indices sl (Z.of_nat (length l));
  let '(a, b, s) := t in Ok (pick l (py_range a b s)).

Fixpoint list_set {A} (l : list A) (i : nat) (x : A) : list A :=
  match l, i with
  | [], _ => []
  | _ :: r, O => x :: r
  | y :: r, S i => y :: list_set r i x
  end.
Fixpoint list_set_all {A} (l : list A) (idx : list Z) (v : list A) : list A :=
  match idx, v with
  | i :: idx, x :: v => list_set_all (list_set l (Z.to_nat i) x) idx v
  | _, _ => l
  end.

(** l[sl] = v: a slice of step 1 is replaced by v whatever its length (at [start]
    if it is empty or reversed); an extended slice needs as many items. *)
Definition py_setslice {A} (l : list A) (sl : slice) (v : list A) : res (list A) :=
  do t <- py_indices sl (Z.of_nat (length l));
  let '(a, b, s) := t in
  if s =? 1 then Ok (firstn (Z.to_nat a) l ++ v ++ skipn (Z.to_nat (Z.max a b)) l)
  else if Nat.eqb (length v) (length (py_range a b s))
       then Ok (list_set_all l (py_range a b s) v)
       else Err ValueError.

(** Keep the items whose position satisfies [f]; [p] is the position of the head. *)
Fixpoint keep {A} (f : Z -> bool) (p : Z) (l : list A) : list A :=
  match l with
  | [] => []
  | x :: r => if f p then x :: keep f (p + 1) r else keep f (p + 1) r
  end.
(** del l[sl] *)
Definition py_delslice {A} (l : list A) (sl : slice) : res (list A) :=
  do t <- py_indices sl (Z.of_nat (length l));
  let '(a, b, s) := t in
  Ok (keep (fun p => negb (existsb (Z.eqb p) (py_range a b s))) 0 l).

(** Position of an index, or IndexError. *)
Definition py_pos (n i : Z) : res Z :=
  let j := if i <? 0 then i + n else i in
  if (j <? 0) || (n <=? j) then Err IndexError else Ok j.
(** l[i] = x,  del l[i],  l.insert(i, x),  l.pop(i) *)
Definition py_setitem {A} (l : list A) (i : Z) (x : A) : res (list A) :=
  do j <- py_pos (Z.of_nat (length l)) i; Ok (list_set l (Z.to_nat j) x).
Definition py_delitem {A} (l : list A) (i : Z) : res (list A) :=
  do j <- py_pos (Z.of_nat (length l)) i;
  Ok (firstn (Z.to_nat j) l ++ skipn (Z.to_nat j + 1) l).
Definition py_insert {A} (l : list A) (i : Z) (x : A) : list A :=
  let n := Z.of_nat (length l) in
  let j := if i <? 0 then Z.max 0 (i + n) else Z.min i n in
  firstn (Z.to_nat j) l ++ [x] ++ skipn (Z.to_nat j) l.
Definition py_pop {A} (l : list A) (i : Z) : res (A * list A) :=
  do x <- py_getitem l i; do r <- py_delitem l i; Ok (x, r).

(** l * n *)
Definition py_repeat {A} (l : list A) (n : Z) : list A := concat (repeat l (Z.to_nat n)).
