(** unicodedata.decimal, digit and numeric of Python: the value of the table; without one the
    default if there is one, else ValueError; TypeError for strings that are not one
    character. *)
From Coq Require Import QArith Qabs ZArith List Bool.
From Verif Require Import Py FloatPrec_Model.
Import ListNotations.
Open Scope Z_scope.

Definition py_call {V D} (table : Z -> option V) (s : list Z) (default : option D) : res (V + D) :=
  match s with
  | [c] => match table c, default with
           | Some v, _ => Ok (inl v)
           | None, Some d => Ok (inr d)
           | None, None => Err ValueError
           end
  | _ => Err TypeError
  end.
Definition py_value {V} (table : Z -> option V) (s : list Z) : res V :=
  match s with
  | [c] => match table c with Some v => Ok v | None => Err ValueError end
  | _ => Err TypeError
  end.

(** The double with a given exact value *)
Definition as_double (q : Q) : fp := FFin (negb (Qle_bool 0 q)) (Qred (Qabs.Qabs q)).
(** The numeric values of characters in Unicode 14 that are not whole numbers *)
Definition unicode_fractions : list (Z * positive) :=
  [(-1, 2%positive); (1, 2%positive); (1, 3%positive); (1, 4%positive); (1, 5%positive); (1, 6%positive); (1, 7%positive); (1, 8%positive); (1, 9%positive); (1, 10%positive); (1, 12%positive);
   (1, 16%positive); (1, 20%positive); (1, 32%positive); (1, 40%positive); (1, 64%positive); (1, 80%positive); (1, 160%positive); (1, 320%positive); (2, 3%positive); (2, 5%positive);
   (3, 2%positive); (3, 4%positive); (3, 5%positive); (3, 8%positive); (3, 16%positive); (3, 20%positive); (3, 64%positive); (3, 80%positive); (4, 5%positive); (5, 2%positive); (5, 6%positive);
   (5, 8%positive); (5, 12%positive); (7, 2%positive); (7, 8%positive); (7, 12%positive); (9, 2%positive); (11, 2%positive); (11, 12%positive); (13, 2%positive); (15, 2%positive);
   (17, 2%positive)].
(** A table as that of unicodedata: each value is a whole number that is a double, or the
    double nearest to one of these fractions. *)
Definition unicode_value (v : Q) : Prop :=
  (exists n, v = inject_Z n /\ of_Q false v = as_double v) \/
  (exists n d, In (n, d) unicode_fractions /\ of_Q false (n # d) = as_double v /\ Qred v = v).
