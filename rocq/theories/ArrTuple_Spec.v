From Coq Require Import ZArith List Bool.
From Verif Require Import Py Range_Spec PySeq_Spec.
Import ListNotations.
Open Scope Z_scope.
(** tuple.index(x, start, stop): the first position in the window whose item equals [x] *)
Definition window (n a : Z) : Z := if a <? 0 then Z.max 0 (a + n) else a.
Definition index_spec {A} (l : list A) (x : A) (a b : Z) (r : res Z) : Prop :=
  let n := Z.of_nat (length l) in
  match r with
  | Ok i => window n a <= i < window n b /\ 0 <= i /\ nth_error l (Z.to_nat i) = Some x /\
            forall j, window n a <= j < i -> 0 <= j -> nth_error l (Z.to_nat j) <> Some x
  | Err e => e = ValueError /\ forall j, window n a <= j < window n b -> 0 <= j -> nth_error l (Z.to_nat j) <> Some x
  end.
