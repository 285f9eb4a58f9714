(** What decimal arithmetic must compute, in exact rational numbers.  Only the types [dec], [ctx], [mode] and
    [signal] are shared with the model. *)
From Coq Require Import ZArith QArith Qabs List Bool.
From Verif Require Import Dec_Model.
Import ListNotations.
Open Scope Z_scope.

(** The number written by a list of digits. *)
Fixpoint number (ds : list Z) : Z :=
  match ds with [] => 0 | d :: r => d * 10 ^ Z.of_nat (length r) + number r end.
Definition is_digit (d : Z) : Prop := 0 <= d <= 9.
(** A coefficient: at least one digit, and no leading zero except in "0". *)
Definition coefficient (ds : list Z) : Prop :=
  Forall is_digit ds /\ ds <> [] /\ (hd 1 ds = 0 -> ds = [0]).
Definition well_formed (x : dec) : Prop := match x with Fin _ i _ => coefficient i | _ => True end.
(** A context that Python accepts. *)
Definition valid (c : ctx) : Prop := 1 <= prec c /\ Emin c <= 0 <= Emax c.

(** Powers of ten and the value of a finite number. *)
Definition ten (e : Z) : Q := Qpower (10 # 1) e.
Definition signed (s : bool) (n : Z) : Z := if s then - n else n.
Definition value (s : bool) (i : list Z) (e : Z) : Q := (inject_Z (signed s (number i)) * ten e)%Q.

(** [n] is [x] rounded to an integer under a mode. *)
Definition toward_zero (x : Q) (n : Z) : Prop :=
  (0 <= x -> inject_Z n <= x /\ x < inject_Z n + 1)%Q /\ (x <= 0 -> x <= inject_Z n /\ inject_Z n - 1 < x)%Q.
Definition away_from_zero (x : Q) (n : Z) : Prop :=
  (0 <= x -> x <= inject_Z n /\ inject_Z n - 1 < x)%Q /\ (x <= 0 -> inject_Z n <= x /\ x < inject_Z n + 1)%Q.
Definition nearest (x : Q) (n : Z) : Prop := (Qabs (x - inject_Z n) <= 1 # 2)%Q.
Definition tie (x : Q) (n : Z) : Prop := (Qabs (x - inject_Z n) == 1 # 2)%Q.
Definition rounds (m : mode) (x : Q) (n : Z) : Prop :=
  match m with
  | DOWN => toward_zero x n
  | UP => away_from_zero x n
  | FLOOR => (inject_Z n <= x /\ x < inject_Z n + 1)%Q
  | CEILING => (x <= inject_Z n /\ inject_Z n - 1 < x)%Q
  | HALF_UP => nearest x n /\ (tie x n -> (Qabs x <= Qabs (inject_Z n))%Q)
  | HALF_DOWN => nearest x n /\ (tie x n -> (Qabs (inject_Z n) <= Qabs x)%Q)
  | HALF_EVEN => nearest x n /\ (tie x n -> Z.Even n)
  | UP05 => exists t, toward_zero x t /\ ((t mod 5 <> 0 /\ n = t) \/ (t mod 5 = 0 /\ away_from_zero x n))
  end.

(** What is delivered when the result is too large: an infinity, or the largest number of the context for the
    modes that never round such a value away from zero. *)
Definition too_large (c : ctx) (s : bool) (r : dec) : Prop :=
  match rounding c, s with
  | (HALF_UP | HALF_EVEN | HALF_DOWN | UP), _ | CEILING, false | FLOOR, true => r = Inf s
  | (DOWN | UP05), _ | CEILING, true | FLOOR, false =>
      exists i e, r = Fin s i e /\ coefficient i /\ number i = 10 ^ prec c - 1 /\ e = Emax c - prec c + 1
  end.

(** A finite number the context can hold. *)
Definition fits (c : ctx) (i : list Z) (e : Z) : Prop :=
  coefficient i /\ (Z.of_nat (length i) <= prec c) /\ Emin c - prec c + 1 <= e /\
  (if clamp c then e <= Emax c - prec c + 1 else e + Z.of_nat (length i) - 1 <= Emax c).

(** [r] is the number [x] (not zero) rounded into the context, with the signals that this rounding must report.
    [E] is the exponent of the leading digit of [x]; the result is a multiple of the unit [10^q]; [s] is its sign. *)
Definition rounded (c : ctx) (x : Q) (r : dec) (sigs : list signal) : Prop :=
  exists (E n : Z), let q := Z.max (E - prec c + 1) (Emin c - prec c + 1) in
    (ten E <= Qabs x /\ Qabs x < ten (E + 1))%Q /\
    rounds (rounding c) (x * ten (- q)) n /\
    (exists s : bool, (if s then x < 0 else 0 < x)%Q /\
     ((ten (Emax c + 1) <= Qabs (inject_Z n * ten q))%Q /\ too_large c s r /\ In Overflow sigs \/
      (Qabs (inject_Z n * ten q) < ten (Emax c + 1))%Q /\ ~ In Overflow sigs /\
      exists i e, r = Fin s i e /\ fits c i e /\ (value s i e == inject_Z n * ten q)%Q)) /\
    (In Inexact sigs <-> (~ x == inject_Z n * ten q)%Q \/ In Overflow sigs) /\
    (In Subnormal sigs <-> E < Emin c) /\
    (In Underflow sigs <-> E < Emin c /\ (~ x == inject_Z n * ten q)%Q) /\
    (In Inexact sigs -> In Rounded sigs) /\
    ~ In DivisionByZero sigs /\ ~ In InvalidOperation sigs /\ ~ In FloatOperation sigs.

(** Signals are reported in order: each sets its flag; the first trapped one is raised. *)
Fixpoint report (c : ctx) (sigs : list signal) (r : dec) (f : list signal) : out dec * list signal :=
  match sigs with
  | [] => (Ret r, f)
  | s :: t => if traps c s then (Raise s, s :: f) else report c t r (s :: f)
  end.
(** The order of the signals that rounding reports. *)
Definition in_order (sigs : list signal) : Prop :=
  exists has : signal -> bool, sigs = filter has [Overflow; Underflow; Subnormal; Inexact; Rounded; Clamped].

(** An operation delivers the exact number [x] through the context: the result is [x] rounded; digits are dropped
    only if the context cannot hold [x] with the ideal exponent [ideal], and otherwise that exponent is kept
    (lowered when clamping demands it).  A zero gets the sign [z] and the ideal exponent, or the nearest allowed one. *)
Definition too_fine (c : ctx) (x : Q) (ideal : Z) : Prop :=
  exists E, (ten E <= Qabs x /\ Qabs x < ten (E + 1))%Q /\ (ideal < Z.max E (Emin c) - prec c + 1 \/ Emax c < E).
Definition delivers (c : ctx) (x : Q) (z : bool) (ideal : Z) (m : list signal -> out dec * list signal) : Prop :=
  let top := Emax c - prec c + 1 in
  ((x == 0)%Q -> exists e, (forall f, m f = report c (if e =? ideal then [] else [Clamped]) (Fin z [0] e) f) /\
    e = Z.min (Z.max ideal (Emin c - prec c + 1)) (if clamp c then top else Emax c)) /\
  ((~ x == 0)%Q -> exists r sigs, (forall f, m f = report c sigs r f) /\ rounded c x r sigs /\ in_order sigs /\
    (In Rounded sigs <-> too_fine c x ideal) /\
    (~ In Rounded sigs -> exists s i, r = Fin s i (if clamp c then Z.min ideal top else ideal)) /\
    (In Clamped sigs <-> (exists s e, r = Fin s [0] e) \/ (~ In Rounded sigs /\ clamp c = true /\ top < ideal))).
(** The sign of a zero sum: the common sign, else plus except when rounding down. *)
Definition zero_sign (c : ctx) (s1 s2 : bool) : bool :=
  if Bool.eqb s1 s2 then s1 else match rounding c with FLOOR => true | _ => false end.
(** The exponent an exact quotient gets: as close to the ideal one as the digits allow. *)
Definition finest (x : Q) (ideal e : Z) : Prop :=
  e <= ideal /\ (exists n, (x == inject_Z n * ten e)%Q) /\ (e = ideal \/ ~ exists n, (x == inject_Z n * ten (e + 1))%Q).
(** The numbers a context can hold, as a set of rationals. *)
Definition holds (c : ctx) (v : Q) : Prop :=
  exists n q, (v == inject_Z n * ten q)%Q /\ Z.abs n < 10 ^ prec c /\ Emin c - prec c + 1 <= q /\ (Qabs v < ten (Emax c + 1))%Q.
(** The NaN that an operation on [x] and [y] passes on: a signaling one first, then the first operand. *)
Definition passed_on (x y z : dec) (signals : bool) : Prop :=
  match x, y with
  | NaN true _ _, _ => z = x /\ signals = true
  | _, NaN true _ _ => z = y /\ signals = true
  | NaN false _ _, _ => z = x /\ signals = false
  | _, NaN false _ _ => z = y /\ signals = false
  | _, _ => False
  end.
(** The same for x * y + z: signaling ones first, then in the order of the operands. *)
Definition passed_on3 (x y z w : dec) (signals : bool) : Prop :=
  match x, y, z with
  | NaN true _ _, _, _ => w = x /\ signals = true
  | _, NaN true _ _, _ => w = y /\ signals = true
  | _, _, NaN true _ _ => w = z /\ signals = true
  | NaN false _ _, _, _ => w = x /\ signals = false
  | _, NaN false _ _, _ => w = y /\ signals = false
  | _, _, NaN false _ _ => w = z /\ signals = false
  | _, _, _ => False
  end.
(** Zero times infinity. *)
Definition zero_times_infinity (x y : dec) : Prop :=
  match x, y with
  | Fin _ i _, Inf _ | Inf _, Fin _ i _ => number i = 0
  | _, _ => False
  end.
(** It becomes quiet, keeps its sign, and its payload keeps the digits that fit. *)
Definition quieted (c : ctx) (z r : dec) : Prop :=
  exists g s p p', z = NaN g s p /\ r = NaN false s p' /\
    let room := if clamp c then prec c - 1 else prec c in
    (Z.of_nat (length p) <= room -> p' = p) /\
    (room < Z.of_nat (length p) -> number p' = number p mod 10 ^ room /\ hd 1 p' <> 0).
Definition good (x : dec) : Prop := match x with Fin _ i _ => coefficient i | Inf _ => True | NaN _ _ p => Forall is_digit p end.
