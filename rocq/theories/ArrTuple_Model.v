(** Model of crosshair/libimpl/builtinslib.py 2180-2481: symbolic tuples (and the sequences
    inside symbolic lists), which are an SMT array and a length.  Under an assignment the
    array is a total function on integers and the length an integer that is not negative. *)
From Coq Require Import ZArith List Bool.
From Verif Require Import Py Range_Spec PySeq_Spec.
Import ListNotations.
Open Scope Z_scope.

(** 2180-2190 flip_slice_vs_bounded_len with an integer *)
Definition normalize (n idx : Z) : Z := if 0 <=? idx then idx else n + idx.
Definition flip_index (n i : Z) : res Z :=
  if (n <=? i) || (i <? - n) then Err IndexError else Ok (normalize n i).
(** 2191-2206 with a slice: the step is not looked at *)
Definition flip_slice (n : Z) (sl : slice) : Z * Z :=
  (match sl_start sl with None => 0 | Some a => normalize n a end,
   match sl_stop sl with None => n | Some b => normalize n b end).
(** 2211-2224 clip_range_to_bounded_len *)
Definition clip (n x : Z) : Z := if x <? 0 then 0 else if n <? x then n else x.
Definition clip_range (n start stop : Z) : Z * Z := (clip n start, clip n stop).

Section Arr.
Variable A : Type.
Variable eqb : A -> A -> bool.
Record arrtuple := mkArr { arr : Z -> A; alen : Z }.
(** the items from position [a] up to [b] *)
Definition items (f : Z -> A) (a b : Z) : list A := map (fun k => f (a + Z.of_nat k)) (seq 0 (Z.to_nat (b - a))).
(** 2390-2402 __iter__ *)
Definition contents (t : arrtuple) : list A := items (arr t) 0 (alen t).
(** 2436-2456 __getitem__ with an integer *)
Definition getitem (t : arrtuple) (i : Z) : res A := do j <- flip_index (alen t) i; Ok (arr t j).
(** simplestructs.py 626-638 SliceView.slice: the items of the view *)
Definition view (t : arrtuple) (start stop : Z) : list A :=
  let n := alen t in
  let left_at_end := start <=? 0 in
  let right_at_end := n <=? stop in
  if left_at_end && right_at_end then contents t
  else
    let start := if left_at_end then 0 else start in
    let stop := if right_at_end then n else stop in
    let stop := if stop <=? start then start else stop in
    items (arr t) start stop.
(** 2436-2451 __getitem__ with a slice *)
Definition getslice (t : arrtuple) (sl : slice) : res (list A) :=
  match sl_start sl, sl_stop sl, sl_step sl with
  | None, None, None => Ok (contents t)
  | _, _, _ =>
    let '(start, stop) := flip_slice (alen t) sl in
    let '(start, stop) := clip_range (alen t) start stop in
    Ok (view t start stop)
  end.
(** 2458-2481 index; the defaults are 0 and 9223372036854775807 *)
Fixpoint search (f : Z -> A) (idx : Z) (count : nat) (x : A) : res Z :=
  match count with
  | O => Err ValueError
  | S c => if eqb (f idx) x then Ok idx else search f (idx + 1) c x
  end.
Definition index (t : arrtuple) (x : A) (start stop : Z) : res Z :=
  let mylen := alen t in
  let start := if start <? 0 then start + mylen else start in
  let stop := if stop <? 0 then stop + mylen else stop in
  let start := Z.max start 0 in
  let stop := Z.min stop mylen in
  search (arr t) start (Z.to_nat (stop - start)) x.
(** 2356-2364 _lexicographic_compare over the zipped items *)
Fixpoint lexcmp (on_diff : A -> A -> bool) (a b : list A) : option bool :=
  match a, b with
  | x :: a, y :: b => if eqb x y then lexcmp on_diff a b else Some (on_diff x y)
  | _, _ => None
  end.
Definition compare (on_diff : A -> A -> bool) (on_prefix : Z -> Z -> bool) (t : arrtuple) (other : list A) : bool :=
  match lexcmp on_diff (contents t) other with
  | Some b => b
  | None => on_prefix (alen t) (Z.of_nat (length other))
  end.
Variable ltb : A -> A -> bool.
Definition lt_ := compare ltb Z.ltb.                                      (* 2366-2369 *)
Definition le_ := compare ltb Z.leb.                                      (* 2371-2374 *)
Definition gt_ := compare (fun x y => ltb y x) (fun a b => b <? a).       (* 2376-2379 *)
Definition ge_ := compare (fun x y => ltb y x) (fun a b => b <=? a).      (* 2381-2384 *)
(** 2330-2342 __eq__ with another such tuple: the lengths and the whole arrays *)
Definition smt_eq (t u : arrtuple) : Prop := alen t = alen u /\ forall i, arr t i = arr u i.
(** 2343-2353 __eq__ with any other iterable *)
Fixpoint eq_items (f : Z -> A) (idx : Z) (other : list A) : bool :=
  match other with [] => true | y :: r => if eqb (f idx) y then eq_items f (idx + 1) r else false end.
Definition eq_iter (t : arrtuple) (other : list A) : bool :=
  if negb (alen t =? Z.of_nat (length other)) then false else eq_items (arr t) 0 other.
(** 2303-2320 _smt_for_unification *)
Fixpoint unify_items (f : Z -> A) (idx : Z) (other : list A) : Prop :=
  match other with [] => True | y :: r => f idx = y /\ unify_items f (idx + 1) r end.
Definition unify (t : arrtuple) (other : list A) : Prop :=
  alen t = Z.of_nat (length other) /\ unify_items (arr t) 0 other.
(** 2414-2429 __contains__ with an SMT value *)
Definition smt_contains (t : arrtuple) (x : A) : Prop := exists idx, 0 <= idx /\ idx < alen t /\ arr t idx = x.
(** 2256-2264 __mul__: self.__add__(ret) each time *)
Definition mul (t : arrtuple) (other : Z) : res (list A) :=
  if other <=? 0 then getslice t (mkSl (Some 0) (Some 0) None)
  else Ok (fold_left (fun r _ => contents t ++ r) (seq 1 (Z.to_nat (other - 1))) (contents t)).
End Arr.
