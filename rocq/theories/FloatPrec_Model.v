(** Model of the symbolic floats represented as IEEE doubles
    (crosshair/libimpl/builtinslib.py 677-699, 1013-1014, 1101-1102, 1566-1663). *)
From Coq Require Import QArith Qround ZArith Bool List.
From Verif Require Import Py.
Open Scope Z_scope.

(** A double: sign and magnitude (at least 0), an infinity, or not-a-number *)
Inductive fp := FFin (neg : bool) (mag : Q) | FInf (neg : bool) | FNaN.
Definition fval (neg : bool) (mag : Q) : Q := if neg then (- mag)%Q else mag.

(** Rounding of a magnitude n / d to a double: 53 bits, to nearest, ties to even (the mode of
    the solver's arithmetic and of Python), least exponent -1074 *)
Definition half_even (n d : Z) : Z :=
  let q := n / d in
  let r := n mod d in
  match Z.compare (2 * r) d with Lt => q | Gt => q + 1 | Eq => if Z.even q then q else q + 1 end.
Definition scale (q : Q) (s : Z) : Q :=
  if 0 <=? s then (Qnum q * 2 ^ s # Qden q)%Q else (Qnum q # (Qden q * Z.to_pos (2 ^ (- s))))%Q.
(** the exponent e with 2^e <= q < 2^(e+1) *)
Definition exponent (q : Q) : Z :=
  let e := Z.log2 (Qnum q) - Z.log2 (QDen q) in
  if Qle_bool 1 (scale q (- e)) then e else e - 1.
Definition round_mag (q : Q) : Q :=
  if Qle_bool q 0 then 0%Q
  else
    let s := 52 - Z.max (exponent q) (-1022) in
    let t := scale q s in
    Qred (scale (inject_Z (half_even (Qnum t) (QDen t))) (- s)).
Definition max_exponent : Q := inject_Z (2 ^ 1024).
Definition round_fp (neg : bool) (mag : Q) : fp :=
  let m := round_mag mag in if Qle_bool max_exponent m then FInf neg else FFin neg m.
(** the double nearest to a number; [z] is the sign of a zero *)
Definition of_Q (z : bool) (q0 : Q) : fp :=
  let q := Qred q0 in
  if Qeq_bool q 0 then FFin z 0 else if Qle_bool 0 q then round_fp false q else round_fp true (- q).

(** the solver's operations on doubles *)
Definition is_zero (x : fp) : bool := match x with FFin _ m => Qeq_bool m 0 | _ => false end.
Definition sign (x : fp) : bool := match x with FFin n _ => n | FInf n => n | FNaN => false end.
Definition fp_neg (x : fp) : fp := match x with FFin n m => FFin (negb n) m | FInf n => FInf (negb n) | FNaN => FNaN end.
Definition fp_add (x y : fp) : fp :=
  match x, y with
  | FNaN, _ | _, FNaN => FNaN
  | FInf m, FInf n => if eqb m n then FInf m else FNaN
  | FInf m, _ => FInf m
  | _, FInf n => FInf n
  | FFin m a, FFin n b => of_Q (m && n) (fval m a + fval n b)
  end.
Definition fp_mul (x y : fp) : fp :=
  match x, y with
  | FNaN, _ | _, FNaN => FNaN
  | FFin m a, FFin n b => of_Q (xorb m n) (fval m a * fval n b)
  | _, _ => if is_zero x || is_zero y then FNaN else FInf (xorb (sign x) (sign y))
  end.
Definition fp_div (x y : fp) : fp :=
  match x, y with
  | FNaN, _ | _, FNaN => FNaN
  | FInf _, FInf _ => FNaN
  | FInf m, FFin n _ => FInf (xorb m n)
  | FFin m _, FInf n => FFin (xorb m n) 0
  | FFin m a, FFin n b =>
      if Qeq_bool b 0 then (if Qeq_bool a 0 then FNaN else FInf (xorb m n))
      else of_Q (xorb m n) (fval m a / fval n b)
  end.
(** fpRoundToIntegral: whole doubles are doubles, a zero keeps the sign *)
Inductive mode := RTN | RTP | RTZ | RNE.
Definition whole (md : mode) (q : Q) : Z :=
  match md with
  | RTN => Qfloor q
  | RTP => Qceiling q
  | RTZ => if Qle_bool 0 q then Qfloor q else Qceiling q
  | RNE => half_even (Qnum q) (QDen q)
  end.
Definition to_integral (md : mode) (x : fp) : fp :=
  match x with
  | FFin n m => let z := whole md (fval n m) in
                if z =? 0 then FFin n 0 else FFin (z <? 0) (inject_Z (Z.abs z))
  | _ => x
  end.
(** fp.rem of SMT-LIB: x - y * n where n is the integer nearest to x / y; a zero has x's sign *)
Definition fp_rem (x y : fp) : fp :=
  match x, y with
  | FNaN, _ | _, FNaN => FNaN
  | FInf _, _ => FNaN
  | FFin _ _, FInf _ => x
  | FFin m a, FFin n b =>
      if Qeq_bool b 0 then FNaN
      else let q := (fval m a / fval n b)%Q in
           of_Q m (fval m a - fval n b * inject_Z (half_even (Qnum q) (QDen q)))
  end.
(** a value equal to +0.0 bit for bit: what == of the solver's Python means on doubles *)
Definition plus_zero (x : fp) : bool := match x with FFin n m => negb n && Qeq_bool m 0 | _ => false end.
Definition at_least_zero (x : fp) : bool :=
  match x with FFin n m => negb n || Qeq_bool m 0 | FInf n => negb n | FNaN => false end.
Definition below_zero (x : fp) : bool :=
  match x with FFin n m => n && negb (Qeq_bool m 0) | FInf n => n | FNaN => false end.

(** results: floats and ints are different objects *)
Inductive num := AnInt (z : Z) | AFloat (x : fp).

(** 1616-1622 _check_finite_convert_to *)
Definition check_finite (x : fp) : res unit :=
  match x with FFin _ _ => Ok tt | FInf _ => Err OverflowError | FNaN => Err ValueError end.
Definition fp_to_Z (x : fp) : Z := match x with FFin n m => Qfloor (fval n m) | _ => 0 end.
(** 1585-1587 __bool__; 1589-1594 __int__ *)
Definition p_bool (x : fp) : bool := negb (is_zero x).
Definition p_int (x : fp) : res num := do _ <- check_finite x; Ok (AnInt (fp_to_Z (to_integral RTZ x))).
(** 1624-1627 __floor__, 1639-1642 __ceil__, 1648-1651 __trunc__ *)
Definition p_floor (x : fp) : res num := do _ <- check_finite x; Ok (AFloat (to_integral RTN x)).
Definition p_ceil (x : fp) : res num := do _ <- check_finite x; Ok (AFloat (to_integral RTP x)).
Definition p_trunc (x : fp) : res num := do _ <- check_finite x; Ok (AFloat (to_integral RTZ x)).
(** 1596-1614 __round__; [factor] is 10 ** n as a float, or an error *)
Definition finite (x : fp) : bool := match x with FFin _ _ => true | _ => false end.
Definition p_round_whole (x : fp) : fp := if finite x then to_integral RNE x else x.
Definition p_factor (n : Z) : res fp :=
  match of_Q false (Qpower 10 n) with FInf _ => Err OverflowError | f => Ok f end.
Definition p_round (x : fp) (ndigits : option Z) : res num :=
  match ndigits with
  | None => do _ <- check_finite x; Ok (AnInt (fp_to_Z (to_integral RNE x)))
  | Some n =>
      if n =? 0 then Ok (AFloat (p_round_whole x))
      else do f <- p_factor n;
           if is_zero f then Err ZeroDivisionError
           else Ok (AFloat (fp_div (p_round_whole (fp_mul x f)) f))
  end.
(** 1660-1661 is_integer: self == self.__int__() *)
Definition p_is_integer (x : fp) : res bool :=
  do i <- p_int x;
  Ok (match x, i with FFin n m, AnInt z => Qeq_bool (fval n m) (inject_Z z) | _, _ => false end).
(** 1013-1014 __abs__: If(v < 0, -v, v) *)
Definition p_abs (x : fp) : fp := if below_zero x then fp_neg x else x.
(** 1629-1632 __floordiv__: the floor of the quotient; 679-681: division by zero *)
Definition p_floordiv (x y : fp) : res fp :=
  if is_zero y then Err ZeroDivisionError else Ok (to_integral RTN (fp_div x y)).
(** 677-681, 694-698 %: apply_smt *)
Definition p_mod (x y : fp) : res fp :=
  if is_zero y then Err ZeroDivisionError
  else if at_least_zero y || plus_zero (fp_rem x y) then Ok (fp_rem x y)
  else Ok (fp_add (fp_rem x y) y).
