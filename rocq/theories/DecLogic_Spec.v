(** The General Decimal Arithmetic Specification: a logical operand is zero or positive with exponent
    0 and only the digits 0 and 1; the operations work digit by digit, from the right, on as many
    digits as the precision. *)
From Coq Require Import ZArith List Bool.
From Verif Require Import DecLogic_Model.
Import ListNotations.
Open Scope Z_scope.
Definition logical (d : decimal) : Prop :=
  sign d = 0 /\ exponent d = Some 0 /\ forall x, In x (digits d) -> x = 0 \/ x = 1.
(** The digit [i] places from the right *)
Definition digit (d : decimal) (i : nat) : Z := nth i (rev (digits d)) 0.
(** No zeros in front *)
Definition normal (d : decimal) : Prop := digits d = [0] \/ exists x r, digits d = x :: r /\ x <> 0.
Definition both (a b : Z) : Z := match a, b with 1, 1 => 1 | _, _ => 0 end.
Definition either (a b : Z) : Z := match a, b with 0, 0 => 0 | _, _ => 1 end.
Definition differ (a b : Z) : Z := match a, b with 0, 0 => 0 | 1, 1 => 0 | _, _ => 1 end.
Definition other (a : Z) : Z := match a with 0 => 1 | _ => 0 end.
(** [r] is what the operation gives *)
Definition digitwise (f : Z -> Z -> Z) (prec : nat) (a b r : decimal) : Prop :=
  logical r /\ normal r /\ forall i, digit r i = if Nat.ltb i prec then f (digit a i) (digit b i) else 0.
