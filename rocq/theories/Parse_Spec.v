(** CPython's int(str, base): Objects/longobject.c PyLong_FromUnicodeObject and
    PyLong_FromString, Objects/unicodeobject.c _PyUnicode_TransformDecimalAndSpaceToASCII.
    A string is its list of code points. *)
From Coq Require Import ZArith List Bool.
From Verif Require Import Py.
Import ListNotations.
Open Scope Z_scope.

Section Int.
(** what unicodedata says about characters from 127 on *)
Variable uspace : Z -> bool.
Variable udecimal : Z -> option Z.
(** sys.get_int_max_str_digits(); None: no limit *)
Variable max_digits : option Z.

(** other characters become a question mark *)
Definition to_ascii (c : Z) : Z :=
  if c <? 127 then c else if uspace c then 32 else match udecimal c with Some d => 48 + d | None => 63 end.
Definition c_space (c : Z) : bool := ((9 <=? c) && (c <=? 13)) || (c =? 32).
Fixpoint skip_space (s : list Z) : list Z := match s with c :: r => if c_space c then skip_space r else s | [] => [] end.
(** the value of a digit or letter in bases up to 36 *)
Definition digit_value (c : Z) : Z :=
  if (48 <=? c) && (c <=? 57) then c - 48
  else if (97 <=? c) && (c <=? 122) then c - 97 + 10
  else if (65 <=? c) && (c <=? 90) then c - 65 + 10 else 37.
(** the longest run of digits and single underscores between them: the value, the number of
    digits, and the rest; None if an underscore is not followed by a digit *)
Fixpoint digits (base : Z) (s : list Z) (value count : Z) (after_digit : bool) : option (Z * Z * list Z) :=
  match s with
  | c :: r =>
      if c =? 95 then if after_digit then digits base r value count false else None
      else if digit_value c <? base then digits base r (value * base + digit_value c) (count + 1) true
      else if after_digit then Some (value, count, s) else None
  | [] => if after_digit then Some (value, count, []) else None
  end.
Definition lower (c : Z) : Z := if (65 <=? c) && (c <=? 90) then c + 32 else c.
(** the base and the text after an optional prefix; for base 0 also whether only zeros may follow *)
Definition prefixed (base : Z) (s : list Z) : Z * list Z * bool :=
  let mark := match s with z :: c :: _ => if z =? 48 then lower c else 0 | _ => 0 end in
  let rest := match skipn 2 s with c :: r => if c =? 95 then r else c :: r | [] => [] end in
  if base =? 0 then
    if mark =? 120 then (16, rest, false) else if mark =? 111 then (8, rest, false) else if mark =? 98 then (2, rest, false)
    else (10, s, match s with z :: _ => z =? 48 | _ => false end)
  else if ((base =? 16) && (mark =? 120)) || ((base =? 8) && (mark =? 111)) || ((base =? 2) && (mark =? 98)) then (base, rest, false)
  else (base, s, false).
(** there is no limit in bases that are powers of two *)
Definition limited (base : Z) : bool := negb (existsb (Z.eqb base) [2; 4; 8; 16; 32]).
Definition py_int (s : list Z) (base : Z) : res Z :=
  if negb (base =? 0) && ((base <? 2) || (36 <? base)) then Err ValueError
  else
    let s := skip_space (map to_ascii s) in
    let '(neg, s) := match s with c :: r => if c =? 43 then (false, r) else if c =? 45 then (true, r) else (false, s) | [] => (false, s) end in
    let '(b, s, zeros) := prefixed base s in
    match digits b s 0 0 false with
    | None => Err ValueError
    | Some (value, count, rest) =>
        match skip_space rest with
        | [] => if limited b && match max_digits with Some m => m <? count | None => false end then Err ValueError
                else if zeros && negb (value =? 0) then Err ValueError
                else Ok (if neg then - value else value)
        | _ => Err ValueError
        end
    end.
End Int.

(** A number written as digits with an optional point, as the fraction
    (digits without the point) / 10^(digits after it); int digits are ASCII. *)
Definition digit (c : Z) : bool := (48 <=? c) && (c <=? 57).
Definition number (l : list Z) : Z := fold_left (fun a c => a * 10 + (c - 48)) l 0.
Inductive decimal : list Z -> Z -> Z -> Prop :=
| decimal_int : forall sign i, (sign = [] \/ sign = [43] \/ sign = [45]) -> i <> [] -> forallb digit i = true ->
    decimal (sign ++ i) ((if match sign with [c] => c =? 45 | _ => false end then -1 else 1) * number i) 1
| decimal_point : forall sign i f, (sign = [] \/ sign = [43] \/ sign = [45]) -> i <> [] -> forallb digit i = true -> forallb digit f = true ->
    decimal (sign ++ i ++ 46 :: f) ((if match sign with [c] => c =? 45 | _ => false end then -1 else 1) * number (i ++ f)) (10 ^ Z.of_nat (length f)).
