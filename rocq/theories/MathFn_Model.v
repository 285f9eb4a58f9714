(** Model of crosshair/libimpl/mathlib.py 21-98. *)
From Coq Require Import ZArith List Bool.
From Verif Require Import Py IntOps_Model.
Import ListNotations.
Open Scope Z_scope.

(** Numbers: ints, symbolic reals (RealBasedSymbolicFloat) and floats with a sign bit
    (PreciseIeeeSymbolicFloat, Python's float).  Magnitudes are counted in some small unit. *)
Inductive mag := Finite (m : Z) | Infinite | NotANumber.
Inductive number := NInt (z : Z) | NReal (r : Z) | NFloat (neg : bool) (m : mag).

(** 21-31 _is_positive *)
Definition is_positive (x : number) : bool :=
  match x with NInt z => 0 <=? z | NReal r => 0 <=? r | NFloat neg _ => negb neg end.
Definition negate (x : number) : number :=
  match x with NInt z => NInt (- z) | NReal r => NReal (- r) | NFloat neg m => NFloat (negb neg) m end.
(** 34-51 _copysign; smt_xor is exclusive or *)
Definition copysign (x y : number) : number :=
  if xorb (is_positive x) (is_positive y) then negate x else x.

(** 56-59 _gcd: [while b] is a loop with fuel *)
Fixpoint gcd_loop (fuel : nat) (a b : Z) : res Z :=
  match fuel with
  | O => Err OutOfFuel
  | S f => if b =? 0 then Ok (m_abs a) else do r <- m_mod a b; gcd_loop f b r
  end.
(** the parameters a=0, b=0: more arguments are a TypeError *)
Definition gcd (fuel : nat) (args : list Z) : res Z :=
  match args with
  | [] => gcd_loop fuel 0 0
  | [a] => gcd_loop fuel a 0
  | [a; b] => gcd_loop fuel a b
  | _ => Err TypeError
  end.

(** 69-98 _isfinite, _isnan, _isinf *)
Definition isfinite (x : number) : bool := match x with NFloat _ Infinite | NFloat _ NotANumber => false | _ => true end.
Definition isnan (x : number) : bool := match x with NFloat _ NotANumber => true | _ => false end.
Definition isinf (x : number) : bool := match x with NFloat _ Infinite => true | _ => false end.
