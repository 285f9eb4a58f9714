(** What int, math.floor, math.ceil, round, divmod and the operators do on floats
    (docs.python.org and Objects/floatobject.c), in exact arithmetic. *)
From Coq Require Import QArith Qround Qabs ZArith Bool.
From Verif Require Import Py FloatReal_Model.
Open Scope Q_scope.

(** z is x with its fraction dropped *)
Definition truncates (x : Q) (z : Z) : Prop :=
  (0 <= x -> inject_Z z <= x < inject_Z z + 1) /\ (x <= 0 -> inject_Z z - 1 < x <= inject_Z z).
(** z is the largest integer not above x; the smallest not below x *)
Definition is_floor (x : Q) (z : Z) : Prop :=
  inject_Z z <= x /\ forall w, inject_Z w <= x -> (w <= z)%Z.
Definition is_ceil (x : Q) (z : Z) : Prop :=
  x <= inject_Z z /\ forall w, x <= inject_Z w -> (z <= w)%Z.
(** z is the integer nearest to x; of two, the even one *)
Definition rounds_to (x : Q) (z : Z) : Prop :=
  (forall w, Qabs (x - inject_Z z) <= Qabs (x - inject_Z w)) /\
  (forall w, w <> z -> Qabs (x - inject_Z w) == Qabs (x - inject_Z z) -> Z.Even z).
(** y is the multiple of 10^-n nearest to x; of two, the one with an even last digit *)
Definition rounds_to_digits (x : Q) (n : Z) (y : Q) : Prop :=
  exists z, y * Qpower 10 n == inject_Z z /\ rounds_to (x * Qpower 10 n) z.

(** Objects/floatobject.c float_divmod / _float_div_mod, with exact arithmetic *)
Definition neg_ext (a : ext) : bool :=
  match a with Fin q => negb (Qle_bool 0 q) | Inf n => n | NaN => false end.
Definition zero_ext (a : ext) : bool := match a with Fin q => Qeq_bool q 0 | _ => false end.
Definition e_opp (a : ext) : ext := match a with Fin q => Fin (- q) | Inf n => Inf (negb n) | NaN => NaN end.
Definition e_add (a b : ext) : ext :=
  match a, b with
  | NaN, _ | _, NaN => NaN
  | Inf m, Inf n => if eqb m n then Inf m else NaN
  | Inf m, _ => Inf m
  | _, Inf n => Inf n
  | Fin x, Fin y => Fin (x + y)
  end.
Definition e_sub (a b : ext) : ext := e_add a (e_opp b).
Definition e_mul (a b : ext) : ext :=
  match a, b with
  | NaN, _ | _, NaN => NaN
  | Fin x, Fin y => Fin (x * y)
  | _, _ => if zero_ext a || zero_ext b then NaN else Inf (xorb (neg_ext a) (neg_ext b))
  end.
(** the C division, with a divisor other than zero *)
Definition e_div (a b : ext) : ext :=
  match a, b with
  | NaN, _ | _, NaN => NaN
  | Inf _, Inf _ => NaN
  | Inf m, Fin y => Inf (xorb m (neg_ext (Fin y)))
  | Fin _, Inf _ => Fin 0
  | Fin x, Fin y => Fin (x / y)
  end.
Definition e_fmod (a b : ext) : ext :=
  match a, b with
  | NaN, _ | _, NaN => NaN
  | Inf _, _ => NaN
  | Fin x, Inf _ => Fin x
  | Fin x, Fin y => Fin (x - y * inject_Z (Z.quot (Qnum x * QDen y) (QDen x * Qnum y)))
  end.
Definition e_floor (a : ext) : ext := match a with Fin q => Fin (inject_Z (Qfloor q)) | _ => a end.
Definition nonzero (a : ext) : bool := negb (zero_ext a).
Definition py_divmod (v w : ext) : res (ext * ext) :=
  if zero_ext w then Err ZeroDivisionError
  else
    let mod0 := e_fmod v w in
    let div0 := e_div (e_sub v mod0) w in
    let '(div1, mod1) :=
      if nonzero mod0 then
        if xorb (neg_ext w) (neg_ext mod0) then (e_sub div0 (Fin 1), e_add mod0 w) else (div0, mod0)
      else (div0, Fin 0) in
    Ok (if nonzero div1 then e_floor div1 else Fin 0, mod1).

(** equal results, whatever fraction represents a number *)
Definition ext_eq (a b : ext) : Prop :=
  match a, b with
  | Fin x, Fin y => x == y
  | Inf m, Inf n => m = n
  | NaN, NaN => True
  | _, _ => False
  end.
Definition res_eq (a b : res (ext * ext)) : Prop :=
  match a, b with
  | Ok (d, m), Ok (d', m') => ext_eq d d' /\ ext_eq m m'
  | Err e, Err e' => e = e'
  | _, _ => False
  end.

(** the operators when one side is not finite *)
Definition py_truediv (a b : ext) : res ext := if zero_ext b then Err ZeroDivisionError else Ok (e_div a b).
Definition e_lt (a b : ext) : bool :=
  match a, b with
  | NaN, _ | _, NaN => false
  | Fin x, Fin y => negb (Qle_bool y x)
  | Inf true, Inf true => false
  | Inf true, _ => true
  | Inf false, _ => false
  | Fin _, Inf n => negb n
  end.
Definition e_eqb (a b : ext) : bool :=
  match a, b with
  | Fin x, Fin y => Qeq_bool x y
  | Inf m, Inf n => eqb m n
  | _, _ => false
  end.
Definition e_le (a b : ext) : bool := e_lt a b || e_eqb a b.
Definition e_abs_cmp1 (q : Q) : comparison := Qcompare (if Qle_bool 0 q then q else - q) 1.
Definition odd_integer (q : Q) : bool :=
  Qeq_bool (inject_Z (Qfloor q)) q && Z.odd (Qfloor q).
(** Objects/floatobject.c float_pow, when the base or the exponent is not finite *)
Definition py_pow (v w : ext) : option ext :=
  if zero_ext w then Some (Fin 1)
  else match v, w with
  | NaN, _ => Some NaN
  | Fin x, NaN => Some (if Qeq_bool x 1 then Fin 1 else NaN)
  | _, NaN => Some NaN
  | Fin x, Inf n =>
      Some (match e_abs_cmp1 x with
            | Eq => Fin 1
            | Gt => if n then Fin 0 else Inf false
            | Lt => if n then Inf false else Fin 0
            end)
  | Inf _, Inf n => Some (if n then Fin 0 else Inf false)
  | Inf m, Fin y =>
      Some (if negb (Qle_bool y 0) then Inf (m && odd_integer y) else Fin 0)
  | Fin _, Fin _ => None
  end.
