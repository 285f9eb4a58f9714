(** Reference meaning of list comparison and of writing through a memoryview. *)
From Coq Require Import ZArith List Bool.
From Verif Require Import Py Range_Spec PySeq_Spec Seq_Model Seq_Spec.
Import ListNotations.
Open Scope Z_scope.

(** Lexicographic order on lists: a first difference decides, a proper prefix is smaller. *)
Definition lex_lt {A} (lt : A -> A -> Prop) (l1 l2 : list A) : Prop :=
  (exists p x y r1 r2, l1 = p ++ x :: r1 /\ l2 = p ++ y :: r2 /\ lt x y)
  \/ (exists y r, l2 = l1 ++ y :: r).

(** All builtin parts are of the type [tup] (tuple or list). *)
Fixpoint leaves_are {A} (tup : bool) (s : pseq A) : Prop :=
  match s with
  | PRaw t _ => t = tup
  | PCat a b => leaves_are tup a /\ leaves_are tup b
  | PView _ _ _ => True
  end.

(** m[k] = x for a memoryview of obj[vstart:vstop]: the k-th byte of the view. *)
Definition view_setitem {A} (obj : list A) (vstart vstop k : Z) (x : A) : res (list A) :=
  do j <- py_pos (vstop - vstart) k; Ok (list_set obj (Z.to_nat (vstart + j)) x).
(** m[sl] = v: as many bytes as the slice of the view has, else ValueError. *)
Definition view_setslice {A} (obj : list A) (vstart vstop : Z) (start stop : option Z) (v : list A) : res (list A) :=
  do t <- py_indices (mkSl start stop None) (vstop - vstart);
  let '(a, b, s) := t in
  if Nat.eqb (length v) (length (py_range a b s))
  then Ok (firstn (Z.to_nat (vstart + a)) obj ++ v ++ skipn (Z.to_nat (vstart + a) + length v) obj)
  else Err ValueError.
