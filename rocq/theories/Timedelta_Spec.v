(** What timedelta arithmetic means, independent of the code: a timedelta is a whole number of
    microseconds between those of -999999999 days and of 999999999 days 23:59:59.999999. *)
From Coq Require Import ZArith List Bool.
From Verif Require Import Py Calendar_Model Timedelta_Model Calendar_Spec.
Import ListNotations.
Open Scope Z_scope.

Definition us_per_day : Z := 86400000000.
Definition us_min : Z := -999999999 * us_per_day.
Definition us_max : Z := 999999999 * us_per_day + (us_per_day - 1).
(** the timedelta of so many microseconds *)
Definition stands_for (t : td) (us : Z) : Prop :=
  us = days t * us_per_day + seconds t * 1000000 + microseconds t /\
  0 <= microseconds t < 1000000 /\ 0 <= seconds t < 86400 /\ us_min <= us <= us_max.
(** a result of so many microseconds, or OverflowError if there is no such timedelta *)
Definition gives (r : res td) (us : Z) : Prop :=
  (us_min <= us <= us_max /\ exists t, r = Ok t /\ stands_for t us) \/
  (~ (us_min <= us <= us_max) /\ r = Err OverflowError).
(** q is a/b rounded to the nearest integer, ties to even *)
Definition rounds_to (a b q : Z) : Prop :=
  2 * Z.abs (a - q * b) < Z.abs b \/ (2 * Z.abs (a - q * b) = Z.abs b /\ Z.even q = true).

(** What [a o b] gives for timedeltas of [x] and [y] microseconds *)
Definition s_bop (o : bop) (x y : Z) (r : res bval) : Prop :=
  match o with
  | BAdd => exists t, r = lift VTd t /\ gives t (x + y)
  | BSub => exists t, r = lift VTd t /\ gives t (x - y)
  | BFloorDiv => if y =? 0 then r = Err ZeroDivisionError else r = Ok (VInt (x / y))
  | BMod => if y =? 0 then r = Err ZeroDivisionError else exists t, r = Ok (VTd t) /\ stands_for t (x mod y)
  | BDivmod => if y =? 0 then r = Err ZeroDivisionError else exists t, r = Ok (VPair (x / y) t) /\ stands_for t (x mod y)
  | BCmp c => r = Ok (VBool (s_rel c x y))
  end.
