(** The methods of str on case and character classes, as CPython documents and
    implements them (Objects/unicodeobject.c, Objects/unicodectype.c and
    Tools/unicode/makeunicodedata.py), over the Unicode character database. *)
From Coq Require Import ZArith List Bool.
From Verif Require Import Py.
From Verif Require CaseFn_Model.
Import ListNotations.
Local Open Scope Z_scope.

(** The Unicode character database, as far as these methods need it. *)
Record database := mkDatabase {
  Lowercase : Z -> bool; Uppercase : Z -> bool; Titlecase : Z -> bool;   (* Titlecase: category Lt *)
  Cased : Z -> bool; Ignorable : Z -> bool;
  ToLower : Z -> list Z; ToUpper : Z -> list Z; ToTitle : Z -> list Z; Fold : Z -> list Z;
  Category : Z -> CaseFn_Model.category; Bidi : Z -> CaseFn_Model.bidi;
  Decimal : Z -> option Z; Digit : Z -> option Z; Numeric : Z -> option Z }.

Definition capital_sigma := 931.
Definition small_sigma := 963.
Definition final_sigma := 962.

Section Spec.
Variable d : database.

(** The nearest character that is not case-ignorable exists and is cased. *)
Fixpoint next_cased (l : list Z) : bool :=
  match l with [] => false | c :: r => if Ignorable d c then next_cased r else Cased d c end.

(** A capital sigma ends a word: it follows a cased character and none follows it.
    [before] is the text before it, nearest character first. *)
Definition ends_word (before after : list Z) : bool := next_cased before && negb (next_cased after).

Definition lower_at (before : list Z) (c : Z) (after : list Z) : list Z :=
  if c =? capital_sigma
  then [if ends_word before after then final_sigma else small_sigma]
  else ToLower d c.

(** Replaces each character, given what surrounds it. *)
Fixpoint everywhere (f : list Z -> Z -> list Z -> list Z) (before s : list Z) : list Z :=
  match s with [] => [] | c :: r => f before c r ++ everywhere f (c :: before) r end.

Definition lower (s : list Z) : list Z := everywhere lower_at [] s.
Definition upper (s : list Z) : list Z := flat_map (ToUpper d) s.
Definition casefold (s : list Z) : list Z := flat_map (Fold d) s.
Definition swapcase (s : list Z) : list Z :=
  everywhere (fun before c after =>
    if Uppercase d c then lower_at before c after
    else if Lowercase d c then ToUpper d c else [c]) [] s.
Definition title (s : list Z) : list Z :=
  everywhere (fun before c after =>
    match before with
    | p :: _ => if Cased d p then lower_at before c after else ToTitle d c
    | [] => ToTitle d c
    end) [] s.
Definition capitalize (s : list Z) : list Z :=
  everywhere (fun before c after =>
    match before with [] => ToTitle d c | _ => lower_at before c after end) [] s.

(** Whether a character is cased at all. *)
Definition letter (c : Z) : bool := Lowercase d c || Uppercase d c || Titlecase d c.

(** There is a cased character, and all are lower case. *)
Definition islower (s : list Z) : Prop :=
  (exists c, In c s /\ Lowercase d c = true)
  /\ forall c, In c s -> Uppercase d c = false /\ Titlecase d c = false.
Definition isupper (s : list Z) : Prop :=
  (exists c, In c s /\ Uppercase d c = true)
  /\ forall c, In c s -> Lowercase d c = false /\ Titlecase d c = false.
(** There is a cased character; capitals are exactly the cased characters that do not
    follow a cased character. *)
Definition istitle (s : list Z) : Prop :=
  (exists c, In c s /\ letter c = true)
  /\ forall before c after, s = before ++ c :: after -> letter c = true ->
     (Lowercase d c = true
      <-> exists before' p, before = before' ++ [p] /\ letter p = true).

(** What every character of a string must be. *)
Definition first_letter_C_or_Z (k : CaseFn_Model.category) : bool :=
  match k with
  | CaseFn_Model.Cc | CaseFn_Model.Cf | CaseFn_Model.Cs | CaseFn_Model.Co | CaseFn_Model.Cn
  | CaseFn_Model.Zs | CaseFn_Model.Zl | CaseFn_Model.Zp => true
  | _ => false
  end.
Definition is_letter (k : CaseFn_Model.category) : bool :=
  match k with
  | CaseFn_Model.Lm | CaseFn_Model.Lt | CaseFn_Model.Lu | CaseFn_Model.Ll | CaseFn_Model.Lo => true
  | _ => false
  end.
Definition char_is (p : CaseFn_Model.predicate) (c : Z) : Prop :=
  match p with
  | CaseFn_Model.IsAlnum => is_letter (Category d c) = true \/ Decimal d c <> None \/ Digit d c <> None \/ Numeric d c <> None
  | CaseFn_Model.IsAlpha => is_letter (Category d c) = true
  | CaseFn_Model.IsAscii => 0 <= c <= 127
  | CaseFn_Model.IsDecimal => Decimal d c <> None
  | CaseFn_Model.IsDigit => Digit d c <> None
  | CaseFn_Model.IsNumeric => Numeric d c <> None
  | CaseFn_Model.IsPrintable => c = 32 \/ first_letter_C_or_Z (Category d c) = false
  | CaseFn_Model.IsSpace => Category d c = CaseFn_Model.Zs \/ Bidi d c <> CaseFn_Model.BidiOther
  end.
(** Only isascii and isprintable hold of the empty string. *)
Definition holds (p : CaseFn_Model.predicate) (s : list Z) : Prop :=
  (s = [] -> p = CaseFn_Model.IsAscii \/ p = CaseFn_Model.IsPrintable)
  /\ forall c, In c s -> char_is p c.

(** What is true of the database of Unicode (checked for every code point). *)
Record sane : Prop := {
  sane_lower_upper : forall c, Lowercase d c = true -> Uppercase d c = false /\ Titlecase d c = false;
  sane_upper_title : forall c, Uppercase d c = true -> Titlecase d c = false;
  sane_sigma : Uppercase d capital_sigma = true;
  sane_cased : forall c, Cased d c = letter c;
  sane_ToLower : forall c, ToLower d c <> [] /\ (length (ToLower d c) <= 2)%nat;
  sane_ToUpper : forall c, ToUpper d c <> [] /\ (length (ToUpper d c) <= 3)%nat;
  sane_ToTitle : forall c, ToTitle d c <> [] /\ (length (ToTitle d c) <= 3)%nat;
  sane_Fold : forall c, Fold d c <> [] /\ (length (Fold d c) <= 3)%nat;
  sane_uncased : forall c, letter c = false -> ToTitle d c = [c] /\ ToLower d c = [c];
  sane_decimal : forall c, Decimal d c <> None <-> Category d c = CaseFn_Model.Nd;
  sane_numeric : forall c, (Decimal d c <> None -> Digit d c <> None) /\ (Digit d c <> None -> Numeric d c <> None) }.

(** The tables of the database in CrossHair come from applying the methods of CPython to
    each character. *)
Definition tables_of : CaseFn_Model.tables :=
  CaseFn_Model.mkTables
    (Lowercase d) (Uppercase d) (fun c => Uppercase d c || Titlecase d c)
    (fun c => lower [c]) (fun c => upper [c]) (fun c => title [c]) (fun c => casefold [c])
    (Category d) (Bidi d) (Digit d) (Numeric d).

(** No capital sigma of the text ends a word. *)
Definition no_final_sigma (s : list Z) : Prop :=
  forall before after, s = before ++ capital_sigma :: after -> ends_word (rev before) after = false.
End Spec.

(** str.translate: an integer must be a code point. *)
Fixpoint translate (table : Z -> CaseFn_Model.target) (s : list Z) : res (list Z) :=
  match s with
  | [] => Ok []
  | c :: r =>
      do x <- match table c with
              | CaseFn_Model.TInt z => if (0 <=? z) && (z <=? 1114111) then Ok [z] else Err ValueError
              | CaseFn_Model.TStr x => Ok x
              | CaseFn_Model.TNone => Ok []
              | CaseFn_Model.TOther => Err TypeError
              | CaseFn_Model.TRaises KeyError | CaseFn_Model.TRaises IndexError => Ok [c]
              | CaseFn_Model.TRaises e => Err e
              end;
      do r' <- translate table r;
      Ok (x ++ r')
  end.
