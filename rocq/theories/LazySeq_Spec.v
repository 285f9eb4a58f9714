(** What a fixed tuple of integers answers to each access. *)
From Coq Require Import ZArith List Bool.
From Verif Require Import Py Range_Spec PySeq_Spec LazySeq_Model.
Import ListNotations.
Open Scope Z_scope.

(** tuple.index(x, a, b) *)
Definition bound (n a : Z) : Z := if a <? 0 then Z.max 0 (a + n) else Z.min a n.
Definition tuple_index (l : list Z) (x a b : Z) : res Z :=
  let n := Z.of_nat (length l) in
  index_from (firstn (Z.to_nat (bound n b - bound n a)) (skipn (Z.to_nat (bound n a)) l)) x (bound n a).
Definition answer (l : list Z) (o : op) : ans :=
  match o with
  | Get i => RItem (py_getitem l i)
  | Slice sl => RItems (py_slice l sl)
  | Next k => RItem (match nth_error l k with Some x => Ok x | None => Err StopIteration end)
  | EqTo m => RBool (list_eqb l m)
  | Realize => RItems (Ok l)
  | Index x a b => RItem (tuple_index l x a b)
  end.
(** The accesses covered by the partial theorem *)
Definition covered (n : Z) (o : op) : Prop :=
  match o with
  | Slice sl =>
      match sl_step sl, sl_stop sl with
      | Some s, Some b => s < 0 -> b <= 0 \/ n < b \/ exists a, sl_start sl = Some a /\ a < 0
      | _, _ => True
      end
  | EqTo m => Z.of_nat (length m) <= n
  | _ => True
  end.
(** The items handed to the program by an access *)
Definition given (o : op) (r : ans) : list Z :=
  match o, r with
  | Index _ _ _, _ => []
  | _, RItem (Ok x) => [x]
  | _, RItems (Ok l) => l
  | _, _ => []
  end.
