(** What CPython does with floats (Objects/floatobject.c). *)
From Coq Require Import QArith Qround Qabs ZArith Bool.
From Verif Require Import Py FloatPrec_Model.
Open Scope Z_scope.

(** whole numbers nearest to a number, ties to even *)
Definition nearest_even (q : Q) (z : Z) : Prop :=
  (forall w, Qabs (q - inject_Z z) <= Qabs (q - inject_Z w))%Q /\
  (forall w, w <> z -> (Qabs (q - inject_Z w) == Qabs (q - inject_Z z))%Q -> Z.Even z).
(** math.floor, math.ceil, math.trunc and int give ints *)
Definition py_whole (f : Q -> Z) (x : fp) : res num :=
  match x with
  | FFin n m => Ok (AnInt (f (if n then (- m)%Q else m)))
  | FInf _ => Err OverflowError
  | FNaN => Err ValueError
  end.
Definition py_floor := py_whole Qfloor.
Definition py_ceil := py_whole Qceiling.
Definition py_trunc := py_whole (fun q => Z.quot (Qnum q) (QDen q)).
Definition py_is_integer (x : fp) : bool :=
  match x with FFin _ m => Qnum m mod QDen m =? 0 | _ => false end.
Definition py_abs (x : fp) : fp :=
  match x with FFin _ m => FFin false m | FInf _ => FInf false | FNaN => FNaN end.
(** fmod of C: exact, with the sign of x *)
Definition c_fmod (x y : fp) : fp :=
  match x, y with
  | FNaN, _ | _, FNaN => FNaN
  | FInf _, _ => FNaN
  | FFin _ _, FInf _ => x
  | FFin m a, FFin _ b => FFin m (Qred (a - b * inject_Z (Qfloor (a / b))))
  end.
Definition c_floor (x : fp) : fp :=
  match x with
  | FFin n m => let z := Qfloor (if n then (- m)%Q else m) in
                if z =? 0 then FFin n 0 else FFin (z <? 0) (inject_Z (Z.abs z))
  | _ => x
  end.
Definition c_sub (x y : fp) : fp := fp_add x (fp_neg y).
Definition c_neg (x : fp) : bool := below_zero x.
(** _float_div_mod; 1/2 is exact *)
Definition more_than_half (x : fp) : bool :=
  match x with FFin n m => negb n && negb (Qle_bool m (1 # 2)) | FInf n => negb n | FNaN => false end.
Definition py_divmod (v w : fp) : res (fp * fp) :=
  if is_zero w then Err ZeroDivisionError
  else
    let one := FFin false 1 in
    let mod0 := c_fmod v w in
    let div0 := fp_div (c_sub v mod0) w in
    let '(div1, mod1) :=
      if negb (is_zero mod0) then
        if xorb (c_neg w) (c_neg mod0) then (c_sub div0 one, fp_add mod0 w) else (div0, mod0)
      else (div0, FFin (sign w) 0) in
    let floordiv :=
      if negb (is_zero div1) then
        let f := c_floor div1 in
        if more_than_half (c_sub div1 f) then fp_add f one else f
      else FFin (xorb (sign v) (sign w)) 0 in
    Ok (floordiv, mod1).
(** round(x, n): the double nearest to the nearest multiple of 10^-n *)
Definition py_round_to (x : fp) (n : Z) (r : fp) : Prop :=
  match x with
  | FFin s m => exists z, nearest_even ((if s then - m else m) * Qpower 10 n) z /\
                          r = of_Q s (inject_Z z / Qpower 10 n)
  | _ => r = x
  end.
