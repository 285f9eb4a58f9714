(* Model of crosshair/libimpl/builtinslib.py 5019-5023 (frozenset(...)) and 5115-5117 (set(...)) with
   simplestructs.py 975-1007 (LinearSet) and 1069-1080 (ShellMutableSet's constructor): sets that
   are made from other sets.

   Elements are integers.  Mutable sets, built-in ones and symbolic ones, are on a list of their
   own and have the elements that iteration gives (C19 is about the symbolic ones). *)
From Coq Require Import ZArith List Bool Arith.
Import ListNotations.

Definition memb (x : Z) (l : list Z) : bool := existsb (Z.eqb x) l.
(** simplestructs.py 983-992 check_unique_and_create *)
Fixpoint accept (seq accepted : list Z) : list Z :=
  match seq with
  | [] => accepted
  | item :: seq => accept seq (if memb item accepted then accepted else accepted ++ [item])
  end.
(** LinearSet: the items are a list of its own, or the very set that was passed (979-980) *)
Inductive linear := Own (l : list Z) | OfSet (n : nat).
Record world := World { sets : list (list Z); frozen : list linear }.
(** 1002-1004, 994-1000, 1006-1007 *)
Definition items (w : world) (f : linear) : list Z :=
  match f with Own l => l | OfSet n => nth n (sets w) [] end.

(** what is passed to a constructor *)
Inductive source := SSet (n : nat) | SFrozen (n : nat) | SOther (l : list Z).
Definition iterate (w : world) (s : source) : list Z :=
  match s with
  | SSet n => nth n (sets w) []
  | SFrozen n => items w (nth n (frozen w) (Own []))
  | SOther l => l
  end.
(** builtinslib.py 5019-5023 *)
Definition make_frozen (w : world) (s : source) : linear :=
  match s with
  | SSet n => OfSet n
  | _ => Own (accept (iterate w s) [])
  end.
(** simplestructs.py 1069-1080: a frozen set is kept, everything else is copied *)
Definition make_set (w : world) (s : source) : list Z :=
  match s with
  | SFrozen _ => iterate w s
  | _ => accept (iterate w s) []
  end.

Inductive op :=
  | NewSet (s : source) | NewFrozen (s : source)
  | Add (n : nat) (x : Z) | Discard (n : nat) (x : Z)
  | InSet (n : nat) (x : Z) | InFrozen (n : nat) (x : Z)
  | SizeSet (n : nat) | SizeFrozen (n : nat).
Inductive answer := Nothing | Truth (b : bool) | Size (n : nat).
Fixpoint set_nth (l : list (list Z)) (n : nat) (v : list Z) : list (list Z) :=
  match l, n with [], _ => [] | _ :: r, O => v :: r | x :: r, S n => x :: set_nth r n v end.
Definition step (w : world) (o : op) : answer * world :=
  match o with
  | NewSet s => (Nothing, World (sets w ++ [make_set w s]) (frozen w))
  | NewFrozen s => (Nothing, World (sets w) (frozen w ++ [make_frozen w s]))
  | Add n x => let l := nth n (sets w) [] in
               (Nothing, World (set_nth (sets w) n (if memb x l then l else l ++ [x])) (frozen w))
  | Discard n x => (Nothing, World (set_nth (sets w) n (filter (fun y => negb (Z.eqb y x)) (nth n (sets w) []))) (frozen w))
  | InSet n x => (Truth (memb x (nth n (sets w) [])), w)
  | InFrozen n x => (Truth (memb x (items w (nth n (frozen w) (Own [])))), w)
  | SizeSet n => (Size (length (nth n (sets w) [])), w)
  | SizeFrozen n => (Size (length (items w (nth n (frozen w) (Own [])))), w)
  end.
Fixpoint run (w : world) (ops : list op) : list answer :=
  match ops with [] => [] | o :: ops => let '(a, w) := step w o in a :: run w ops end.
