(** Model of putting a formatted decimal together: crosshair/libimpl/decimallib.py 4970-4997
    (_format_align), 5065-5072 (_format_sign) and 5075-5110 (_format_number).  The dictionary that
    _parse_format_specifier makes is a record; "{:+}".format(exp) is a parameter. *)
From Coq Require Import ZArith List Bool.
From Verif Require Import Py Thousands_Model.
Import ListNotations.
Open Scope Z_scope.

Inductive align := Left | Right | AfterSign | Center.
Inductive sign_option := SMinus | SSpace | SPlus.
Inductive kind := K_e | K_E | K_g | K_G | K_f | K_n | K_percent.
Record spec := Spec { minimumwidth : Z; fill : Z; aligned : align; signs : sign_option; zeropad : bool;
                      thousands_sep : text; grouping : list Z; decimal_point : text; alt : bool; type : kind }.

Section Format.
Variable show_exp : Z -> text.
(** 5065-5072: - is 45, + is 43, space is 32 *)
Definition format_sign (is_negative : bool) (s : spec) : text :=
  if is_negative then [45] else match signs s with SSpace => [32] | SPlus => [43] | SMinus => [] end.
(** 4970-4997 *)
Definition format_align (sign body : text) (s : spec) : text :=
  let padding := repeat (fill s) (Z.to_nat (minimumwidth s - Z.of_nat (length sign) - Z.of_nat (length body))) in
  match aligned s with
  | Left => sign ++ body ++ padding
  | Right => padding ++ sign ++ body
  | AfterSign => sign ++ padding ++ body
  | Center => let half := Nat.div (length padding) 2 in firstn half padding ++ sign ++ body ++ skipn half padding
  end.
(** 5099: E is 69, e is 101; KeyError for other types *)
Definition echar (k : kind) : res Z :=
  match k with K_E | K_G => Ok 69 | K_e | K_g => Ok 101 | _ => Err KeyError end.
Definition is_e (k : kind) : bool := match k with K_e | K_E => true | _ => false end.
(** 5095-5102: what comes after the integer part *)
Definition after (fracpart : text) (exp : Z) (s : spec) : res text :=
  let fracpart := match fracpart with [] => if alt s then decimal_point s else [] | _ => decimal_point s ++ fracpart end in
  do fracpart <- (if negb (exp =? 0) || is_e (type s)
                  then do c <- echar (type s); Ok (fracpart ++ [c] ++ show_exp exp) else Ok fracpart);
  Ok (match type s with K_percent => fracpart ++ [37] | _ => fracpart end).
(** 5075-5110 *)
Definition format_number (is_negative : bool) (intpart fracpart : text) (exp : Z) (s : spec) : res text :=
  let sign := format_sign is_negative s in
  do fracpart <- after fracpart exp s;
  let min_width := if zeropad s then minimumwidth s - Z.of_nat (length fracpart) - Z.of_nat (length sign) else 0 in
  do intpart <- insert_thousands_sep (thousands_sep s) (grouping s) intpart min_width;
  Ok (format_align sign (intpart ++ fracpart) s).
End Format.
