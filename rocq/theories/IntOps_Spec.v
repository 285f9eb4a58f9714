(** What Python's integers do; nothing here refers to the model's operations. *)
From Coq Require Import ZArith List Bool.
From Verif Require Import Py IntOps_Model.
Import ListNotations.
Open Scope Z_scope.

(** Language reference, 6.7: x == (x//y)*y + (x%y), the remainder has the sign of
    the divisor and is smaller in absolute value. *)
Definition is_divmod (x y q r : Z) : Prop :=
  x = q * y + r /\ ((0 <= r < y) \/ (y < r <= 0)).

(** Value of a list of decimal digit characters, most significant first. *)
Definition dec_value (l : list Z) : Z := fold_left (fun v c => v * 10 + (c - 48)) l 0.
Definition is_digit (c : Z) : Prop := 48 <= c <= 57.
(** [l] is the decimal numeral of [n >= 0]: digits, no superfluous leading zero. *)
Definition is_numeral (n : Z) (l : list Z) : Prop :=
  Forall is_digit l /\ dec_value l = n /\
  match l with [] => False | [c] => True | c :: _ => c <> 48 end.
Definition is_decimal (n : Z) (l : list Z) : Prop :=
  if n <? 0 then exists l', l = 45 :: l' /\ is_numeral (- n) l' else is_numeral n l.

Fixpoint pos_popcount (p : positive) : Z :=
  match p with xH => 1 | xO p => pos_popcount p | xI p => 1 + pos_popcount p end.
Definition popcount (n : Z) : Z :=
  match n with Z0 => 0 | Zpos p | Zneg p => pos_popcount p end.

(** int.bit_length: least k with |n| < 2^k. *)
Definition is_bit_length (n k : Z) : Prop :=
  0 <= k /\ Z.abs n < 2 ^ k /\ (forall j, 0 <= j -> Z.abs n < 2 ^ j -> k <= j).

(** round(n, -d), d > 0: the multiple of 10^d nearest to n, ties to an even
    multiple. *)
Definition is_round (n d r : Z) : Prop :=
  exists m, r = m * 10 ^ d /\ 2 * Z.abs (n - r) <= 10 ^ d /\
            (2 * Z.abs (n - r) = 10 ^ d -> Z.even m = true).

(** int ** int *)
Definition py_pow (x y : Z) : res num :=
  if 0 <=? y then Ok (NInt (x ^ y))
  else if x =? 0 then Err ZeroDivisionError else Ok NFloat.

Definition is_byte (c : Z) : Prop := 0 <= c < 256.
(** Little endian value of a byte list. *)
Fixpoint le_value (l : list Z) : Z :=
  match l with [] => 0 | c :: r => c + 256 * le_value r end.
Definition bytes_value (o : order) (l : list Z) : Z :=
  le_value (match o with Big => rev l | _ => l end).
(** Two's complement reading on [n] bytes. *)
Definition signed_value (n v : Z) : Z := if 2 * v <? 256 ^ n then v else v - 256 ^ n.
(** The integer a byte string stands for; the empty string stands for 0. *)
Definition py_int_of_bytes (o : order) (signed : bool) (l : list Z) : Z :=
  let v := bytes_value o l in
  if signed && negb (Nat.eqb (length l) 0) then signed_value (Z.of_nat (length l)) v else v.

(** int.to_bytes: the byte string of the given length that stands for the number;
    OverflowError if there is none; ValueError for a bad length or byte order. *)
Definition is_to_bytes (n len : Z) (o : order) (signed : bool) (r : res (list Z)) : Prop :=
  if (len <? 0) || match o with OtherOrder => true | _ => false end then r = Err ValueError
  else
    (exists l, r = Ok l /\ Forall is_byte l /\ Z.of_nat (length l) = len /\
               py_int_of_bytes o signed l = n) \/
    (r = Err OverflowError /\
     forall l, Forall is_byte l -> Z.of_nat (length l) = len -> py_int_of_bytes o signed l <> n).

Definition in_bounds (v : Z) (mn mx : option Z) : Prop :=
  (forall m, mn = Some m -> m <= v) /\ (forall m, mx = Some m -> v <= m).
Definition bound_holds (v : Z) (b : bound) : Prop :=
  match b with AtLeast m => m <= v | AtMost m => v <= m end.

(** The answers an ordinary int gives to a history of operations. *)
Fixpoint int_run (v : Z) (l : list bop) : list bool :=
  match l with
  | [] => []
  | OpLt z :: l => (v <? z) :: int_run v l
  | OpGt z :: l => (v >? z) :: int_run v l
  | OpNeg :: l => int_run (- v) l
  end.
