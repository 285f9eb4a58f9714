(** Model of AnySymbolicStr (libimpl/builtinslib.py 3380-3843): the predicates on and the
    conversions of case, the other predicates on characters, and translate; with the
    masks and tables of unicode_categories.py 215-497.  A string is its code points. *)
From Coq Require Import ZArith List Bool.
From Verif Require Import Py.
Import ListNotations.
Local Open Scope Z_scope.

Definition text := list Z.

(** General categories of Unicode. *)
Inductive category :=
| Lu | Ll | Lt | Lm | Lo | Mn | Mc | Me | Nd | Nl | No | Pc | Pd | Ps | Pe | Pi | Pf | Po
| Sm | Sc | Sk | So | Zs | Zl | Zp | Cc | Cf | Cs | Co | Cn.
Definition category_eq_dec : forall x y : category, {x = y} + {x <> y}. Proof. decide equality. Defined.
Definition is_cat (x y : category) : bool := if category_eq_dec x y then true else false.

(** Bidirectional classes; only those told apart by the code are named. *)
Inductive bidi := BidiWS | BidiB | BidiS | BidiOther.

(** What the masks and tables are computed from: methods of str applied to each
    character, and functions of unicodedata (None where they raise). *)
Record tables := mkTables {
  one_islower : Z -> bool; one_isupper : Z -> bool; one_istitle : Z -> bool;
  one_lower : Z -> text; one_upper : Z -> text; one_title : Z -> text; one_casefold : Z -> text;
  cat : Z -> category; bidirectional : Z -> bidi;
  digit : Z -> option Z; numeric : Z -> option Z }.

Section Model.
Variable t : tables.

(** unicode_categories.py 323-326 casemap: the characters a method changes. *)
Fixpoint same (x y : text) : bool :=
  match x, y with
  | [], [] => true
  | a :: x, b :: y => (a =? b) && same x y
  | _, _ => false
  end.
Definition changed (f : Z -> text) (c : Z) : bool := negb (same (f c) [c]).
(** 411-497: the k-th character of the result exists. *)
Definition has (k : nat) (f : Z -> text) (c : Z) : bool := changed f c && (k <=? length (f c))%nat.
(** 411-497: the k-th character of the result; characters without it are never asked for. *)
Definition nth_char (k : nat) (f : Z -> text) (c : Z) : Z := nth (pred k) (f c) 0.

(** builtinslib.py 3390-3412 casefold and 3817-3843 upper of one character. *)
Definition convert3 (f : Z -> text) (c : Z) : text :=
  if negb (changed f c) then [c]
  else if negb (has 2 f c) then [nth_char 1 f c]
  else if negb (has 3 f c) then [nth_char 1 f c; nth_char 2 f c]
  else [nth_char 1 f c; nth_char 2 f c; nth_char 3 f c].
(** 3577-3592 lower of one character. *)
Definition convert2 (f : Z -> text) (c : Z) : text :=
  if negb (changed f c) then [c]
  else if negb (has 2 f c) then [nth_char 1 f c]
  else [nth_char 1 f c; nth_char 2 f c].

Definition m_casefold (s : text) : text :=
  match s with [c] => convert3 (one_casefold t) c | _ => concat (map (convert3 (one_casefold t)) s) end.
Definition m_upper (s : text) : text :=
  match s with [c] => convert3 (one_upper t) c | _ => concat (map (convert3 (one_upper t)) s) end.
Definition m_lower (s : text) : text :=
  match s with [c] => convert2 (one_lower t) c | _ => concat (map (convert2 (one_lower t)) s) end.

(** 3739-3761 swapcase *)
Fixpoint m_swapcase (s : text) : text :=
  match s with
  | [] => []
  | c :: r =>
      (if one_islower t c then m_upper [c]
       else if one_isupper t c then m_lower [c]
       else [c]) ++ m_swapcase r
  end.

(** 3763-3774 _title_one_char *)
Definition title_one_char (c : Z) : text :=
  if negb (has 2 (one_title t) c) then [nth_char 1 (one_title t) c]
  else if negb (has 3 (one_title t) c) then [nth_char 1 (one_title t) c; nth_char 2 (one_title t) c]
  else [nth_char 1 (one_title t) c; nth_char 2 (one_title t) c; nth_char 3 (one_title t) c].
(** 3776-3804 title *)
Fixpoint title_loop (do_upper : bool) (s : text) : text :=
  match s with
  | [] => []
  | c :: r =>
      if negb (one_istitle t c || one_islower t c) then [c] ++ title_loop true r
      else if negb do_upper then m_lower [c] ++ title_loop do_upper r
      else (if changed (one_title t) c then title_one_char c else [c]) ++ title_loop false r
  end.
Definition m_title (s : text) : text := title_loop true s.

(** 3381-3388 capitalize (Python 3.8 or later) *)
Definition m_capitalize (s : text) : text :=
  match s with [] => [] | c :: r => m_title [c] ++ m_lower r end.

(** 3478-3494 islower *)
Fixpoint islower_loop (found : bool) (s : text) : bool :=
  match s with
  | [] => found
  | c :: r =>
      if one_istitle t c then false
      else islower_loop (if one_islower t c then true else found) r
  end.
Definition m_islower (s : text) : bool := match s with [] => false | _ => islower_loop false s end.
(** 3534-3555 isupper *)
Fixpoint isupper_loop (found : bool) (s : text) : bool :=
  match s with
  | [] => found
  | c :: r =>
      if one_isupper t c then isupper_loop true r
      else if one_islower t c || one_istitle t c then false
      else isupper_loop found r
  end.
Definition m_isupper (s : text) : bool := match s with [] => false | _ => isupper_loop false s end.
(** 3511-3532 istitle *)
Fixpoint istitle_loop (expect_upper found : bool) (s : text) : bool :=
  match s with
  | [] => found
  | c :: r =>
      if one_istitle t c then
        if negb expect_upper then false else istitle_loop false true r
      else if one_islower t c then
        if expect_upper then false else istitle_loop expect_upper found r
      else istitle_loop true found r
  end.
Definition m_istitle (s : text) : bool := istitle_loop true false s.

(** 3436-3448 _chars_in_maskfn *)
Fixpoint mask_loop (maskfn : Z -> bool) (s : text) : bool :=
  match s with [] => true | c :: r => if negb (maskfn c) then false else mask_loop maskfn r end.
Definition chars_in_maskfn (maskfn : Z -> bool) (ret_if_empty : bool) (s : text) : bool :=
  match s with [] => ret_if_empty | _ => mask_loop maskfn s end.

(** unicode_categories.py 334-381: the masks. *)
Definition in_cats (l : list category) (c : Z) : bool := existsb (is_cat (cat t c)) l.
Definition has_value (f : Z -> option Z) (c : Z) : bool := match f c with Some _ => true | None => false end.
Definition ascii_mask (c : Z) : bool := (0 <=? c) && (c <? 128).
Definition alpha_mask (c : Z) : bool := in_cats [Lm; Lt; Lu; Ll; Lo] c.
Definition alnum_mask (c : Z) : bool := alpha_mask c || has_value (numeric t) c.
Definition decimal_mask (c : Z) : bool := in_cats [Nd] c.
Definition digit_mask (c : Z) : bool := has_value (digit t) c.
Definition numeric_mask (c : Z) : bool := has_value (numeric t) c.
Definition printable_mask (c : Z) : bool :=
  negb (in_cats [Cc; Co; Cn; Cf; Cs; Zs; Zl; Zp; Zs] c) || (c =? 32).
Definition space_mask (c : Z) : bool :=
  if is_cat (cat t c) Zs then true
  else match bidirectional t c with BidiWS | BidiB | BidiS => true | BidiOther => false end.

(** 3450-3509: the methods. *)
Inductive predicate := IsAlnum | IsAlpha | IsAscii | IsDecimal | IsDigit | IsNumeric | IsPrintable | IsSpace.
Definition m_predicate (p : predicate) (s : text) : bool :=
  match p with
  | IsAlnum => chars_in_maskfn alnum_mask false s
  | IsAlpha => chars_in_maskfn alpha_mask false s
  | IsAscii => chars_in_maskfn ascii_mask true s
  | IsDecimal => chars_in_maskfn decimal_mask false s
  | IsDigit => chars_in_maskfn digit_mask false s
  | IsNumeric => chars_in_maskfn numeric_mask false s
  | IsPrintable => chars_in_maskfn printable_mask true s
  | IsSpace => chars_in_maskfn space_mask false s
  end.
End Model.

(** What looking up a character in the table of translate gives. *)
Inductive target := TInt (z : Z) | TStr (s : text) | TNone | TOther | TRaises (e : exc).

(** The builtin chr: its argument must fit a C int before its range is checked. *)
Definition chr (z : Z) : res text :=
  if (z <? - 2 ^ 31) || (2 ^ 31 <=? z) then Err OverflowError
  else if (z <? 0) || (1114111 <? z) then Err ValueError
  else Ok [z].

(** 3806-3820 translate *)
Fixpoint m_translate (table : Z -> target) (s : text) : res text :=
  match s with
  | [] => Ok []
  | c :: r =>
      match table c with
      | TRaises KeyError | TRaises IndexError => do r' <- m_translate table r; Ok ([c] ++ r')
      | TRaises e => Err e
      | TInt z => do x <- chr z; do r' <- m_translate table r; Ok (x ++ r')
      | TStr x => do r' <- m_translate table r; Ok (x ++ r')
      | TNone => m_translate table r
      | TOther => Err TypeError
      end
  end.
