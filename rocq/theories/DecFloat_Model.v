(** Model of Decimal.from_float: crosshair/libimpl/decimallib.py 408-456.  A float is a NaN, an
    infinity or finite with its sign; as_integer_ratio is a parameter of which the theorems use what
    it is specified to give (that of symbolic floats is in FloatReal_Model, C149). *)
From Coq Require Import ZArith List Bool.
Open Scope Z_scope.
Inductive number :=
| Int (i : Z)
| Float (negative : bool) (mantissa exponent : Z)   (* (-1)^negative * mantissa * 2^exponent *)
| FInf (negative : bool)
| FNaN.
Inductive decimal := Triple (sign coeff exp : Z) | Infinity (negative : bool) | NaN.
(** int.bit_length *)
Definition bit_length (d : Z) : Z := if d =? 0 then 0 else Z.log2 (Z.abs d) + 1.
Section Ratio.
(** abs(f).as_integer_ratio() *)
Variable ratio : Z -> Z -> Z * Z.
(** 432-456; 438: Decimal(repr(f)) of inf, -inf and nan *)
Definition from_float (f : number) : decimal :=
  match f with
  | Int i => Triple (if 0 <=? i then 0 else 1) (Z.abs i) (-0)
  | FInf negative => Infinity negative
  | FNaN => NaN
  | Float negative m e =>
      let sign := if negative then 1 else 0 in
      let (n, d) := ratio m e in
      let k := bit_length d - 1 in
      Triple sign (n * 5 ^ k) (- k)
  end.
End Ratio.
