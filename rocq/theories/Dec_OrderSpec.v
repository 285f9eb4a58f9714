(** The order of decimals, and rounding to a fixed place, in exact rational numbers. *)
From Coq Require Import ZArith QArith Qabs List Bool.
From Verif Require Import Dec_Model Dec_Spec.
Import ListNotations.
Open Scope Z_scope.

(** The numerical order of decimals that are not NaN. *)
Definition less (x y : dec) : Prop :=
  match x, y with
  | Fin s1 i1 e1, Fin s2 i2 e2 => (value s1 i1 e1 < value s2 i2 e2)%Q
  | Inf true, Inf true | Inf false, Inf false => False
  | Inf true, _ => True
  | _, Inf false => True
  | _, _ => False
  end.
Definition same (x y : dec) : Prop :=
  match x, y with
  | Fin s1 i1 e1, Fin s2 i2 e2 => (value s1 i1 e1 == value s2 i2 e2)%Q
  | Inf s, Inf s' => s = s'
  | _, _ => False
  end.
Definition is_nan (x : dec) : Prop := match x with NaN _ _ _ => True | _ => False end.
Definition is_signaling (x : dec) : Prop := match x with NaN true _ _ => True | _ => False end.

(** The total order: -NaN, -sNaN, -Infinity, the negative numbers (-0 last), the positive numbers (0 first),
    Infinity, sNaN, NaN.  Equal numbers go by exponent, NaNs by payload; both reversed for negative ones. *)
Definition class (x : dec) : Z :=
  match x with
  | NaN false true _ => -4 | NaN true true _ => -3 | Inf true => -2 | Fin true _ _ => -1
  | Fin false _ _ => 1 | Inf false => 2 | NaN true false _ => 3 | NaN false false _ => 4
  end.
Definition precedes (x y : dec) : Prop :=
  class x < class y \/
  class x = class y /\
  match x, y with
  | Fin s i e, Fin _ i' e' =>
      (value s i e < value s i' e')%Q \/ (value s i e == value s i' e')%Q /\ (if s then e' < e else e < e')
  | NaN _ s p, NaN _ _ p' => if s then number p' < number p else number p < number p'
  | _, _ => False
  end.
(** A decimal as it is stored: coefficients and payloads have no leading zero. *)
Definition canonical (x : dec) : Prop :=
  match x with Fin _ i _ => coefficient i | Inf _ => True | NaN _ _ p => Forall is_digit p /\ hd 1 p <> 0 end.

(** The operand [z] is delivered through the context: a number is rounded into it, an infinity kept. *)
Definition delivered (c : ctx) (z : dec) (m : list signal -> out dec * list signal) : Prop :=
  match z with
  | Fin s i e => delivers c (value s i e) s e m
  | Inf _ => forall f, m f = (Ret z, f)
  | NaN _ _ _ => False
  end.

(** The same number without trailing zeros, as far as the exponent may rise; a zero becomes 0. *)
Definition reduced (c : ctx) (r0 r : dec) : Prop :=
  let bound := if clamp c then Emax c - prec c + 1 else Emax c in
  match r0 with
  | Fin s i e =>
      (number i = 0 -> r = Fin s [0] 0) /\
      (number i <> 0 -> exists i' e', r = Fin s i' e' /\ coefficient i' /\ (value s i' e' == value s i e)%Q /\
        e <= e' <= bound /\ (number i' mod 10 <> 0 \/ e' = bound))
  | _ => r = r0
  end.
