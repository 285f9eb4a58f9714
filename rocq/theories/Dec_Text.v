(** Decimal numbers and texts: crosshair/libimpl/decimallib.py 270-305 (a number from a text), 776-836
    (the text of a number, also in engineering notation) and 4819-4839 (the regular expression).

    A character is a digit, a point, a sign, one of the letters of the special words, an underscore,
    white space, or something else.  A letter is small, large, or one of the characters that
    re.IGNORECASE takes for it although they are not letters of the alphabet (a dotless or dotted i,
    a long s). *)
From Coq Require Import ZArith List Bool.
From Verif Require Import Dec_Model.
Import ListNotations.
Open Scope Z_scope.

Inductive letter := LE | LI | LN | LF | LT | LY | LS | LA.
Inductive form := Small | Large | Odd.
Inductive ch := Dig (d : Z) | Dot | Sgn (minus : bool) | Let (l : letter) (f : form) | Under | Space | Other.
Definition letter_eqb (a b : letter) : bool :=
  match a, b with LE, LE | LI, LI | LN, LN | LF, LF | LT, LT | LY, LY | LS, LS | LA, LA => true | _, _ => false end.

(** * 776-826 __str__ *)
Definition word (l : list (letter * form)) : list ch := map (fun '(l, f) => Let l f) l.
(** "%+d" % n *)
Definition signed_text (n : Z) : list ch := Sgn (n <? 0) :: map Dig (to_str (Z.abs n)).
Definition dotplace (eng : bool) (i : list Z) (e : Z) : Z :=
  let leftdigits := e + len i in
  if (e <=? 0) && (-6 <? leftdigits) then leftdigits
  else if negb eng then 1
  else if is0 i then (leftdigits + 1) mod 3 - 1
  else (leftdigits - 1) mod 3 + 1.
Definition show (eng capitals : bool) (x : dec) : list ch :=
  let sign (s : bool) := if s then [Sgn true] else [] in
  match x with
  | Inf s => sign s ++ word [(LI, Large); (LN, Small); (LF, Small); (LI, Small); (LN, Small); (LI, Small); (LT, Small); (LY, Small)]
  | NaN signaling s p => sign s ++ (if signaling then word [(LS, Small)] else []) ++ word [(LN, Large); (LA, Small); (LN, Large)] ++ map Dig p
  | Fin s i e =>
      let leftdigits := e + len i in
      let place := dotplace eng i e in
      let '(intpart, fracpart) :=
        if place <=? 0 then ([Dig 0], Dot :: map Dig (zeros (- place)) ++ map Dig i)
        else if len i <=? place then (map Dig i ++ map Dig (zeros (place - len i)), [])
        else (map Dig (upto i place), Dot :: map Dig (from i place)) in
      let exp := if leftdigits =? place then [] else Let LE (if capitals then Large else Small) :: signed_text (leftdigits - place) in
      sign s ++ intpart ++ fracpart ++ exp
  end.

(** * 270-305 __new__ for a text *)
(** value.strip().replace("_", "") *)
Fixpoint lstrip (s : list ch) : list ch := match s with Space :: r => lstrip r | _ => s end.
Definition strip (s : list ch) : list ch := rev (lstrip (rev (lstrip s))).
Definition no_under (s : list ch) : list ch := filter (fun c => match c with Under => false | _ => true end) s.
(** \d* *)
Fixpoint span (s : list ch) : list Z * list ch :=
  match s with Dig d :: r => let '(ds, t) := span r in (d :: ds, t) | _ => ([], s) end.
(** letters, whatever their case *)
Fixpoint letters (l : list letter) (s : list ch) : option (list ch) :=
  match l with
  | [] => Some s
  | a :: l => match s with Let b _ :: r => if letter_eqb a b then letters l r else None | _ => None end
  end.
(** (E(?P<exp>[-+]?\d+))? \Z: the exponent.  A group that is matched as far as possible is never
    given back, because what it matched could not be matched by what follows. *)
Definition exponent (s : list ch) : option Z :=
  match s with
  | [] => Some 0
  | Let LE _ :: r =>
      let '(minus, r) := match r with Sgn m :: r => (m, r) | _ => (false, r) end in
      match span r with
      | ([], _) => None
      | (ds, []) => Some (if minus then - to_int ds else to_int ds)
      | _ => None
      end
  | _ => None
  end.
Definition number_text (sign : bool) (s : list ch) : option dec :=
  let '(i, r) := span s in
  let '(f, r) := match r with Dot :: r => span r | _ => ([], r) end in
  match exponent r with
  | Some e => Some (Fin sign (to_str (to_int (i ++ f))) (e - len f))
  | None => None
  end.
Definition infinity_text (sign : bool) (s : list ch) : option dec :=
  match letters [LI; LN; LF] s with
  | Some [] => Some (Inf sign)
  | Some r => match letters [LI; LN; LI; LT; LY] r with Some [] => Some (Inf sign) | _ => None end
  | None => None
  end.
Definition nan_text (sign : bool) (s : list ch) : option dec :=
  let '(signaling, s) := match s with Let LS _ :: r => (true, r) | _ => (false, s) end in
  match letters [LN; LA; LN] s with
  | Some r => match span r with (p, []) => Some (NaN signaling sign (lstrip0 (to_str (to_int (or0 p))))) | _ => None end
  | None => None
  end.
(** None: the text is refused (ConversionSyntax) *)
Definition parse (s : list ch) : option dec :=
  let s := no_under (strip s) in
  let '(sign, s) := match s with Sgn m :: r => (m, r) | _ => (false, s) end in
  match s with
  | Dig _ :: _ | Dot :: Dig _ :: _ => number_text sign s
  | _ => match infinity_text sign s with Some d => Some d | None => nan_text sign s end
  end.
