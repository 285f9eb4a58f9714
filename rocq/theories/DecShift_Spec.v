(** What rotate and shift of decimals mean, by digits of the coefficient: digit i of c is the one that
    counts 10^i. *)
From Coq Require Import ZArith List Bool.
From Verif Require Import DecShift_Model.
Import ListNotations.
Open Scope Z_scope.
Definition digits_ok (l : list Z) : Prop := Forall (fun d => 0 <= d < 10) l.
Definition coefficient (l : list Z) : Z :=
  (fix go (l : list Z) : Z :=
     match l with [] => 0 | d :: r => d * 10 ^ Z.of_nat (length r) + go r end) l.
Definition digit (c i : Z) : Z := (c / 10 ^ i) mod 10.
(** texts of numbers: only that of zero begins with a zero *)
Definition plain (l : list Z) : Prop :=
  digits_ok l /\ (l = [0] \/ exists d r, l = d :: r /\ d <> 0).
(** an integral number of places, not beyond the precision *)
Definition by_places (prec n : Z) (other : dec) : Prop :=
  exists neg l, other = Fin neg l 0 /\ n = (if neg then - coefficient l else coefficient l)
    /\ - prec <= n <= prec.
(** c' holds, in its [prec] digits, those of c moved n places to the left, around the end *)
Definition rotated (prec n c c' : Z) : Prop :=
  0 <= c' < 10 ^ prec
  /\ forall i, 0 <= i < prec -> digit c' ((i + n) mod prec) = digit c i.
(** … and without going around: what leaves is lost and zeros come in *)
Definition shifted (prec n c c' : Z) : Prop :=
  0 <= c' < 10 ^ prec
  /\ forall i, 0 <= i < prec ->
       digit c' i = if (0 <=? i - n) && (i - n <? prec) then digit c (i - n) else 0.
