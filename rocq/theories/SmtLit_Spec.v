(** How the solver writes floats and sequences, after the SMT-LIB standard, and the numbers that floats stand for. *)
From Coq Require Import ZArith List Bool String QArith.
Import ListNotations.
From Verif Require Import SmtLit_Model.
Open Scope Z_scope.

(** n digits of a number, the highest first *)
Fixpoint digits (base : Z) (n : nat) (v : Z) : list Z :=
  match n with O => [] | S n => digits base n (v / base) ++ [v mod base] end.
Definition hex_char (d : Z) : Z := if d <? 10 then 48 + d else 87 + d.
Definition bits_text (n : nat) (v : Z) : text := txt "#b" ++ map hex_char (digits 2 n v).
Definition hex_text (n : nat) (v : Z) : text := txt "#x" ++ map hex_char (digits 16 n v).

(** a float: sign, exponent of 11 bits, significand of 52 bits *)
Record float := Float { sign : Z; exponent : Z; significand : Z }.
Definition valid (x : float) : Prop := 0 <= sign x < 2 /\ 0 <= exponent x < 2048 /\ 0 <= significand x < 2 ^ 52.
(** the IEEE layout *)
Definition bits (x : float) : Z := sign x * 2 ^ 63 + exponent x * 2 ^ 52 + significand x.
Definition is_nan (x : float) : Prop := exponent x = 2047 /\ significand x <> 0.
Definition fp_text (x : float) : text :=
  txt "(fp " ++ bits_text 1 (sign x) ++ txt " " ++ bits_text 11 (exponent x) ++ txt " " ++ hex_text 13 (significand x) ++ txt ")".
(** the solver's text for a float: zeros, infinities and not-a-number have names *)
Inductive written : float -> text -> Prop :=
| write_minus_zero : written (Float 1 0 0) (txt "(_ -zero 11 53)")
| write_plus_zero : written (Float 0 0 0) (txt "(_ +zero 11 53)")
| write_minus_inf : written (Float 1 2047 0) (txt "(_ -oo 11 53)")
| write_plus_inf : written (Float 0 2047 0) (txt "(_ +oo 11 53)")
| write_nan : written (Float 0 2047 (2 ^ 51)) (txt "(_ NaN 11 53)")
| write_fp x : valid x -> written x (fp_text x).

(** the number that a finite float stands for *)
Definition power2 (e : Z) : Q := if 0 <=? e then inject_Z (2 ^ e) else Qinv (inject_Z (2 ^ (- e))).
Definition number (x : float) : Q :=
  ((if sign x =? 0 then 1 else -1) *
   (if exponent x =? 0 then inject_Z (significand x) * power2 (-1074)
    else inject_Z (2 ^ 52 + significand x) * power2 (exponent x - 1075)))%Q.

(** a sequence is empty, an element, or an element followed by a sequence *)
Inductive denotes {A} : seq_value A -> list A -> Prop :=
| denote_empty : denotes Empty []
| denote_unit a : denotes (Unit a) [a]
| denote_concat a v l : denotes v l -> denotes (Concat [Unit a; v]) (a :: l).
