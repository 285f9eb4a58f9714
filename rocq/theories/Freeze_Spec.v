(* Sets as Python has them: every set has elements of its own; what a set is, is said by
   membership and by the number of distinct elements. *)
From Coq Require Import ZArith List Bool Arith.
From Verif Require Import Freeze_Model.
Import ListNotations.

(** A set: finitely many elements, given with repetitions *)
Definition has (l : list Z) (x : Z) : bool := if in_dec Z.eq_dec x l then true else false.
Definition size (l : list Z) : nat := length (nodup Z.eq_dec l).
Record pyworld := Py { p_sets : list (list Z); p_frozen : list (list Z) }.
Definition elements (w : pyworld) (s : source) : list Z :=
  match s with SSet n => nth n (p_sets w) [] | SFrozen n => nth n (p_frozen w) [] | SOther l => l end.
Definition change (f : list Z -> list Z) (n : nat) (l : list (list Z)) : list (list Z) :=
  firstn n l ++ match skipn n l with [] => [] | x :: r => f x :: r end.
Definition pystep (w : pyworld) (o : op) : answer * pyworld :=
  match o with
  | NewSet s => (Nothing, Py (p_sets w ++ [elements w s]) (p_frozen w))
  | NewFrozen s => (Nothing, Py (p_sets w) (p_frozen w ++ [elements w s]))
  | Add n x => (Nothing, Py (change (fun l => x :: l) n (p_sets w)) (p_frozen w))
  | Discard n x => (Nothing, Py (change (remove Z.eq_dec x) n (p_sets w)) (p_frozen w))
  | InSet n x => (Truth (has (nth n (p_sets w) []) x), w)
  | InFrozen n x => (Truth (has (nth n (p_frozen w) []) x), w)
  | SizeSet n => (Size (size (nth n (p_sets w) [])), w)
  | SizeFrozen n => (Size (size (nth n (p_frozen w) [])), w)
  end.
Fixpoint pyrun (w : pyworld) (ops : list op) : list answer :=
  match ops with [] => [] | o :: ops => let '(a, w) := pystep w o in a :: pyrun w ops end.

(** No set is changed after a frozenset was made from it; [froze] are those *)
Fixpoint kept (froze : list nat) (ops : list op) : Prop :=
  match ops with
  | [] => True
  | NewFrozen (SSet n) :: ops => kept (n :: froze) ops
  | (Add n _ | Discard n _) :: ops => ~ In n froze /\ kept froze ops
  | _ :: ops => kept froze ops
  end.
