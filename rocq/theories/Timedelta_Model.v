(** Model of class timedelta in crosshair/libimpl/datetimelib.py 510-825, and of the way Python
    chooses a method when one operand is a timedelta that existed before the analysis (the C
    class, [TReal]) and the other is the stand-in class ([TCh]).  Integers are read under one
    assignment of the symbolic ones; constructor arguments are integers (the float branches of
    584-592 are not modelled); a float operand is given as its integer ratio. *)
From Coq Require Import ZArith List Bool.
From Verif Require Import Py Calendar_Model.
Import ListNotations.
Open Scope Z_scope.

(** 510-528 _divide_and_round *)
Definition divide_and_round (a b : Z) : res Z :=
  if b =? 0 then Err ZeroDivisionError else
  let q := a / b in let r := a mod b in
  let r := r * 2 in
  let greater_than_half := if 0 <? b then b <? r else r <? b in
  Ok (if greater_than_half || ((r =? b) && (q mod 2 =? 1)) then q + 1 else q).

(** the three fields *)
Record td := mkTd { days : Z; seconds : Z; microseconds : Z }.
(** 531-536 *)
Definition to_us (t : td) : Z := (days t * (24 * 3600) + seconds t) * 1000000 + microseconds t.
Definition state (t : td) : list Z := [days t; seconds t; microseconds t].

(** 558-611 __new__ with integer arguments *)
Definition td_new (dd ss us ms mm hh ww : Z) : res td :=
  let dd := dd + ww * 7 in
  let ss := ss + (mm * 60 + hh * 3600) in
  let us := us + ms * 1000 in
  let '(ss, us) := if (0 <=? us) && (us <? 1000000) then (ss, us) else (ss + us / 1000000, us mod 1000000) in
  let '(dd, ss) := if (0 <=? ss) && (ss <? 24 * 3600) then (dd, ss) else (dd + ss / (24 * 3600), ss mod (24 * 3600)) in
  if 999999999 <? Z.abs dd then Err OverflowError else Ok (mkTd dd ss us).
Definition td3 (dd ss us : Z) : res td := td_new dd ss us 0 0 0 0.

(** 661-691 __add__, __sub__ of two timedeltas *)
Definition m_add (a b : td) : res td := td3 (days a + days b) (seconds a + seconds b) (microseconds a + microseconds b).
Definition m_sub (a b : td) : res td := td3 (days a - days b) (seconds a - seconds b) (microseconds a - microseconds b).
(** 698-710 *)
Definition m_neg (a : td) : res td := td3 (- days a) (- seconds a) (- microseconds a).
Definition m_pos (a : td) : res td := Ok a.
Definition m_abs (a : td) : res td := if days a <? 0 then m_neg a else Ok a.
(** 693-696 __rsub__: -self + other *)
Definition m_rsub (self other : td) : res td := do n <- m_neg self; m_add n other.
(** 712-725 __mul__ *)
Definition m_mul (a : td) (k : Z) : res td := td3 (days a * k) (seconds a * k) (microseconds a * k).
Definition m_mulf (a : td) (n d : Z) : res td := do q <- divide_and_round (to_us a * n) d; td3 0 0 q.
(** 727-734 __floordiv__ *)
Definition m_floordiv (a b : td) : res Z := if to_us b =? 0 then Err ZeroDivisionError else Ok (to_us a / to_us b).
Definition m_floordivi (a : td) (k : Z) : res td := if k =? 0 then Err ZeroDivisionError else td3 0 0 (to_us a / k).
(** 736-746 __truediv__ by an int, a float *)
Definition m_divi (a : td) (k : Z) : res td := do q <- divide_and_round (to_us a) k; td3 0 0 q.
Definition m_divf (a : td) (n d : Z) : res td := do q <- divide_and_round (d * to_us a) n; td3 0 0 q.
(** 748-761 __mod__, __divmod__ *)
Definition m_mod (a b : td) : res td := if to_us b =? 0 then Err ZeroDivisionError else td3 0 0 (to_us a mod to_us b).
Definition m_divmod (a b : td) : res (Z * td) :=
  if to_us b =? 0 then Err ZeroDivisionError else do r <- td3 0 0 (to_us a mod to_us b); Ok (to_us a / to_us b, r).
(** 763-800 comparisons *)
Definition m_cmp (r : rel) (a b : td) : bool := rel_of r (cmp (state a) (state b)).
(** 806-815 *)
Definition m_bool (a : td) : bool := negb (microseconds a =? 0) || (negb (seconds a =? 0) || negb (days a =? 0)).

(** *** Which method runs.  The C class returns NotImplemented for the stand-in, so the
    reflected method of the stand-in runs if it has one; otherwise TypeError. *)
Inductive kind := TCh | TReal.
Inductive bop := BAdd | BSub | BFloorDiv | BMod | BDivmod | BCmp (r : rel).
Inductive bval := VTd (t : td) | VInt (z : Z) | VPair (z : Z) (t : td) | VBool (b : bool).
Definition lift {A} (f : A -> bval) (r : res A) : res bval := do x <- r; Ok (f x).
Definition direct (o : bop) (a b : td) : res bval :=
  match o with
  | BAdd => lift VTd (m_add a b)
  | BSub => lift VTd (m_sub a b)
  | BFloorDiv => lift VInt (m_floordiv a b)
  | BMod => lift VTd (m_mod a b)
  | BDivmod => lift (fun '(q, r) => VPair q r) (m_divmod a b)
  | BCmp r => Ok (VBool (m_cmp r a b))
  end.
(** the method of the right operand that stands for the operation the other way round *)
Definition swap_rel (r : rel) : rel := match r with REq => REq | RNe => RNe | RLt => RGt | RLe => RGe | RGt => RLt | RGe => RLe end.
Definition reflected (o : bop) (self other : td) : res bval :=
  match o with
  | BAdd => lift VTd (m_add self other)
  | BSub => lift VTd (m_rsub self other)
  | BCmp r => Ok (VBool (m_cmp (swap_rel r) self other))
  | _ => Err TypeError  (* no __rfloordiv__, __rmod__, __rdivmod__ *)
  end.
(** [creal]: what the C class does with two of its own *)
Definition binop (creal : bop -> td -> td -> res bval) (o : bop) (ka kb : kind) (a b : td) : res bval :=
  match ka, kb with
  | TCh, _ => direct o a b
  | TReal, TCh => reflected o b a
  | TReal, TReal => creal o a b
  end.

(** *** Making a symbolic timedelta: 2713-2717, and reading it back: 817-822 (the float
    of whole microseconds is read back exactly by the C constructor) *)
Definition symbolic_td (dd ss us : Z) : option td :=
  if (-999999999 <=? dd) && (dd <=? 999999999) && (0 <=? ss) && (ss <=? 3600 * 24 - 1) && (0 <=? us) && (us <=? 999999)
  then Some (mkTd dd ss us) else None.

(** *** A timedelta minus a date: 678-691 __sub__ calls __add__ of the date *)
Definition m_sub_date (a : td) (ordinal : Z) : res Z :=
  let s := ordinal + days a in if (0 <? s) && (s <=? MAXORDINAL) then Ok s else Err OverflowError.
