(** Exact conversion: the decimal coeff * 10^exp with exp <= 0 has the value mantissa * 2^e, and no
    larger exponent would do. *)
From Coq Require Import ZArith.
From Verif Require Import DecFloat_Model.
Open Scope Z_scope.
(** c / 10^k = m * 2^e *)
Definition equals (c k m e : Z) : Prop :=
  if 0 <=? e then c = m * 2 ^ e * 10 ^ k else c * 2 ^ (- e) = m * 10 ^ k.
(** float.as_integer_ratio: the pair in lowest terms with a positive denominator *)
Definition lowest (m e n d : Z) : Prop :=
  0 < d /\ Z.gcd n d = 1 /\ (if 0 <=? e then n = m * 2 ^ e * d else n * 2 ^ (- e) = m * d).
