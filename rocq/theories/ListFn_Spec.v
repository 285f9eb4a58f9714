From Coq Require Import ZArith List Bool.
From Verif Require Import Py Range_Spec PySeq_Spec.
Import ListNotations.
Open Scope Z_scope.
(** list.index(x, start, stop) of CPython: the first position in the window of an item that is
    [x] or equals [x], as a position in the whole list. *)
Definition first_pos {A} (same : A -> bool) (l : list A) (a b : Z) (r : res Z) : Prop :=
  match r with
  | Ok i => a <= i < b /\ (exists y, nth_error l (Z.to_nat i) = Some y /\ same y = true) /\
            forall j y, a <= j < i -> nth_error l (Z.to_nat j) = Some y -> same y = false
  | Err e => e = ValueError /\ forall j y, a <= j < b -> nth_error l (Z.to_nat j) = Some y -> same y = false
  end.
(** the bounds: negative ones count from the end, and are cut to the list *)
Definition low (n : Z) (a : option Z) : Z := match a with None => 0 | Some a => if a <? 0 then Z.max 0 (a + n) else Z.min a n end.
Definition high (n : Z) (b : option Z) : Z := match b with None => n | Some b => if b <? 0 then Z.max 0 (b + n) else Z.min b n end.
(** [x] occurs as the pieces, separated *)
Inductive separated (sep : list Z) : list (list Z) -> list Z -> Prop :=
| sep_nil : separated sep [] []
| sep_one : forall x, separated sep [x] x
| sep_more : forall x y r s, separated sep (y :: r) s -> separated sep (x :: y :: r) (x ++ sep ++ s).
(** repr of a tuple: the reprs between parentheses, with a comma after a single one *)
Definition py_tuple_repr (items : list (list Z)) (s : list Z) : Prop :=
  exists body, separated [44; 32] items body /\ s = [40] ++ body ++ (match items with [_] => [44] | _ => [] end) ++ [41].
