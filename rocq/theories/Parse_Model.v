(** Model of crosshair/libimpl/builtinslib.py 4936-5016: int() and float() of symbolic
    strings.  [py_int] is CPython's int, called on realized arguments. *)
From Coq Require Import ZArith List Bool.
From Verif Require Import Py IntOps_Model.
Import ListNotations.
Open Scope Z_scope.

Section Int.
Variable py_int : list Z -> Z -> res Z.
(** 4955-4963 *)
Fixpoint loop (val : list Z) (base : Z) (s : list Z) (ret : Z) : res Z :=
  match s with
  | [] => Ok ret
  | ch :: s =>
      let ch_num := ch - 48 in
      if (ch_num <? 0) || (base <=? ch_num) then py_int val 10
      else loop val base s (ret * base + ch_num)
  end.
(** 4936-4963 _int of a symbolic string; [base] None: not given *)
Definition m_int (val : list Z) (base : option Z) : res Z :=
  let base := match base with None => 10 | Some b => b end in
  if (base <? 2) || (10 <? base) || match val with [] => true | _ => false end then py_int val base
  else loop val base val 0.

(** 4970-4981 _FLOAT_REGEX: sign, digits before the point, digits after it if there is one *)
Definition is_digit (c : Z) : bool := (48 <=? c) && (c <=? 57).
Fixpoint span (s : list Z) : list Z * list Z :=
  match s with c :: r => if is_digit c then let '(a, b) := span r in (c :: a, b) else ([], s) | [] => ([], []) end.
Definition split_sign (s : list Z) : list Z * list Z :=
  match s with c :: r => if (c =? 43) || (c =? 45) then ([c], r) else ([], s) | [] => ([], []) end.
Definition fullmatch (s : list Z) : option (list Z * list Z * list Z) :=
  let '(posneg, s) := split_sign s in
  let '(intpart, s) := span s in
  match intpart, s with
  | [], _ => None
  | _, [] => Some (posneg, intpart, [])
  | _, d :: s => if d =? 46 then let '(fraction, s) := span s in match s with [] => Some (posneg, intpart, fraction) | _ => None end
                 else None
  end.
(** 4997-5016 _float of a symbolic string: the real number as numerator and denominator;
    None is the fall-back to CPython on the realized string.  RealBasedSymbolicFloat values
    are real numbers: no rounding is modelled, as there is none. *)
Definition m_float (val : list Z) : option (res (Z * Z)) :=
  match fullmatch val with
  | None => None
  | Some (posneg, intpart, fraction) => Some (
      do i <- m_int intpart None;
      do r <- (match fraction with
               | [] => Ok (i, 1)
               | _ => do f <- m_int fraction None;
                      let denominator := 10 ^ Z.of_nat (length fraction) in
                      Ok (i * denominator + f, denominator)
               end);
      Ok (if match posneg with [c] => c =? 45 | _ => false end then - fst r else fst r, snd r))
  end.
End Int.
