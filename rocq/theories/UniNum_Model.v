(** Model of crosshair/libimpl/unicodedatalib.py 11-50 (_decimal, _digit, _numeric), with
    unicode_categories.py 203-213 (get_char_fn_map), 305-320 (fractionmap, nummap), 243-263
    (_cached_int_transform) and 498-525 (the tables), and limit_denominator of Python's
    fractions.

    Strings are lists of code points; [maxu] is sys.maxunicode.  A table is what the function
    of unicodedata gives for a character, None for ValueError. *)
From Coq Require Import QArith Qabs ZArith List Bool.
From Verif Require Import Py CharMask_Model FloatPrec_Model.
Import ListNotations.
Open Scope Z_scope.

(** 203-213 get_char_fn_map: in the order of the code points *)
Definition fn_map {V} (maxu : Z) (table : Z -> option V) : list (Z * V) :=
  flat_map (fun c => match table c with Some v => [(c, v)] | None => [] end) (codepoints maxu).
(** 498-517: the mask of the characters that have a value *)
Definition exists_mask {V} (maxu : Z) (table : Z -> option V) : res mask :=
  make_mask (map fst (fn_map maxu table)).
(** 255-257: what is asserted of a solver function that stands for a dictionary; of other
    arguments nothing is said *)
Definition interprets (f : Z -> Z) (dict : list (Z * Z)) : Prop := forall k v, In (k, v) dict -> f k = v.

(** 12, 24, 36: codepoint = ord(ch), builtinslib 5083-5089 *)
Definition m_ord (s : list Z) : res Z := match s with [c] => Ok c | _ => Err TypeError end.
(** 11-33 _decimal and _digit; [f] is the solver function of the table *)
Definition m_integer (maxu : Z) (table : Z -> option Z) (f : Z -> Z) (s : list Z) : res Z :=
  do c <- m_ord s;
  do m <- exists_mask maxu table;
  if smt_matches m c then Ok (f c) else Err ValueError.

(** fractions.Fraction.limit_denominator(1000000), on a fraction n / d in lowest terms.  The
    loop keeps p0, q0, p1, q1, n, d. *)
Definition max_denominator := 1000000.
Fixpoint ld_loop (fuel : nat) (p0 q0 p1 q1 n d : Z) : option (Z * Z * Z * Z) :=
  match fuel with
  | O => None
  | S fuel =>
      if d =? 0 then None
      else
        let a := n / d in
        let q2 := q0 + a * q1 in
        if max_denominator <? q2 then Some (p0, q0, p1, q1)
        else ld_loop fuel p1 q1 (p0 + a * p1) q2 d (n - a * d)
  end.
Definition as_fraction (n d : Z) : Z * Z := let q := Qred (n # Z.to_pos d) in (Qnum q, QDen q).
Definition limit_denominator (v : Q) : option (Z * Z) :=
  let q := Qred v in
  if QDen q <=? max_denominator then Some (Qnum q, QDen q)
  else
    match ld_loop 100 0 1 1 0 (Qnum q) (QDen q) with
    | None => None
    | Some (p0, q0, p1, q1) =>
        let k := (max_denominator - q0) / q1 in
        let bound1 := as_fraction (p0 + k * p1) (q0 + k * q1) in
        let bound2 := as_fraction p1 q1 in
        let dist b := Qabs.Qabs ((fst b # Z.to_pos (snd b)) - q) in
        Some (if Qle_bool (dist bound2) (dist bound1) then bound2 else bound1)
    end.
(** 309-314 fractionmap *)
Definition fraction_of (table : Z -> option Q) (c : Z) : option (Z * Z) :=
  match table c with Some v => limit_denominator v | None => None end.
Definition numerators (maxu : Z) (table : Z -> option Q) : list (Z * Z) :=
  map (fun p => (fst p, fst (snd p))) (fn_map maxu (fraction_of table)).
Definition denominators (maxu : Z) (table : Z -> option Q) : list (Z * Z) :=
  map (fun p => (fst p, snd (snd p))) (fn_map maxu (fraction_of table)).

(** 35-48 _numeric: the numerator and denominator ... *)
Definition m_ratio (maxu : Z) (table : Z -> option Q) (fnum fden : Z -> Z) (s : list Z) : res (Z * Z) :=
  do c <- m_ord s;
  do m <- exists_mask maxu (fraction_of table);
  if smt_matches m c then Ok (fnum c, fden c) else Err ValueError.
(** ... and their quotient, when floats are doubles, and when they are reals (builtinslib
    1289-1300).  The numerator is promoted to a float; no denominator is 0. *)
Definition m_numeric maxu table fnum fden s : res fp :=
  do r <- m_ratio maxu table fnum fden s;
  Ok (fp_div (of_Q false (inject_Z (fst r))) (of_Q false (inject_Z (snd r)))).
Definition m_numeric_real maxu table fnum fden s : res Q :=
  do r <- m_ratio maxu table fnum fden s;
  Ok (inject_Z (fst r) / inject_Z (snd r))%Q.

(** The functions that replace those of unicodedata take one argument (11, 23, 35), so a call
    with a default is a TypeError, whatever its arguments. *)
Definition m_call {V D} (body : list Z -> res V) (s : list Z) (default : option D) : res (V + D) :=
  match default with Some _ => Err TypeError | None => do v <- body s; Ok (inl v) end.
