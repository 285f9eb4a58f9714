(** What datetimes mean, independent of the code: a local reading (microseconds since the start
    of day 0 on the wall clock), a zone and a fold.  Zones answer the UTC offset, if any, for
    a reading. *)
From Coq Require Import ZArith List Bool.
From Verif Require Import Py Calendar_Model Calendar_Spec Timedelta_Model Timedelta_Spec Datetime_Model.
Import ListNotations.
Open Scope Z_scope.

Record moment := mkM { local : Z; mzone : option nat; mfold : Z }.
Definition day_of (l : Z) : Z := l / us_per_day.
Definition tod (l : Z) : Z := l mod us_per_day.
Definition clock (l : Z) : Z * Z * Z * Z :=
  (tod l / 3600000000, tod l / 60000000 mod 60, tod l / 1000000 mod 60, tod l mod 1000000).
(** from 0001-01-01 00:00 to 9999-12-31 23:59:59.999999 *)
Definition in_span (l : Z) : Prop := us_per_day <= l < 3652060 * us_per_day.

Section Zones.
(** the answer of a time zone for a wall clock date and time, and a fold *)
Variable tz_utcoffset : nat -> Z * Z * Z -> Z * Z * Z * Z -> Z -> option td.
(** the UTC offset of a moment in microseconds, if it has one *)
Definition off (m : moment) : option Z :=
  match mzone m with
  | None => None
  | Some z => option_map to_us (tz_utcoffset z (s_date (day_of (local m))) (clock (local m)) (mfold m))
  end.
Definition aware (m : moment) : bool := match off m with None => false | Some _ => true end.
(** what moments of different zones are compared by: the instant, or the wall clock if naive *)
Definition key (m : moment) : Z := match off m with None => local m | Some o => local m - o end.
(** PEP 495: a moment whose offset changes with the fold equals none of another zone *)
Definition problematic (m : moment) : Prop := off m <> off (mkM (local m) (mzone m) (1 - mfold m)).

(** Moments of the same zone compare and subtract on the wall clock; others by their keys,
    if both are aware or both naive; otherwise they are unequal and have no order and no
    difference. *)
Definition s_order (r : rel) (a b : moment) (res : res bool) : Prop :=
  if same_zone (mzone a) (mzone b) then res = Ok (s_rel r (local a) (local b)) else
  let equal := aware a = aware b /\ key a = key b /\ ~ problematic a /\ ~ problematic b in
  match r with
  | REq => (res = Ok true /\ equal) \/ (res = Ok false /\ ~ equal)
  | RNe => (res = Ok false /\ equal) \/ (res = Ok true /\ ~ equal)
  | _ => if Bool.eqb (aware a) (aware b) then res = Ok (s_rel r (key a) (key b)) else res = Err TypeError
  end.
Definition s_diff (a b : moment) (r : res td) : Prop :=
  if same_zone (mzone a) (mzone b) then exists t, r = Ok t /\ stands_for t (local a - local b) else
  if Bool.eqb (aware a) (aware b) then exists t, r = Ok t /\ stands_for t (key a - key b) else r = Err TypeError.
End Zones.
(** the time zones keep to the rules: an offset is strictly less than a day, and is a timedelta *)
Definition zones_ok (tz : nat -> Z * Z * Z -> Z * Z * Z * Z -> Z -> option td) : Prop :=
  forall z f c k t, tz z f c k = Some t -> stands_for t (to_us t) /\ - us_per_day < to_us t < us_per_day.

(** a datetime object stands for a moment *)
Definition is_moment (a : dt) (m : moment) : Prop :=
  in_span (local m) /\
  (ymd (dp a) = Some (s_date (day_of (local m))) \/ ord (dp a) = Some (day_of (local m))) /\
  (forall f, ymd (dp a) = Some f -> f = s_date (day_of (local m))) /\
  (forall n, ord (dp a) = Some n -> n = day_of (local m)) /\
  clock (local m) = (hh a, mi a, se a, us a) /\
  zone a = mzone m /\ fold a = mfold m /\ (fold a = 0 \/ fold a = 1).

(** *** Times of day: microseconds since midnight, less the offset if aware *)
Definition t_us (a : tm) : Z := th a * 3600000000 + tmi a * 60000000 + ts a * 1000000 + tus a.
Definition is_time (a : tm) : Prop :=
  0 <= th a < 24 /\ 0 <= tmi a < 60 /\ 0 <= ts a < 60 /\ 0 <= tus a < 1000000 /\
  forall z o, ttz a = Some (z, o) -> stands_for o (to_us o) /\ - us_per_day < to_us o < us_per_day.
Definition t_aware (a : tm) : bool := match ttz a with None => false | Some _ => true end.
Definition t_key (a : tm) : Z := match ttz a with None => t_us a | Some (_, o) => t_us a - to_us o end.
(** the same zone object has one offset *)
Definition t_consistent (a b : tm) : Prop :=
  forall z o o', ttz a = Some (z, o) -> ttz b = Some (z, o') -> o = o'.
Definition s_time_order (r : rel) (a b : tm) (res : res bool) : Prop :=
  if Bool.eqb (t_aware a) (t_aware b) then res = Ok (s_rel r (t_key a) (t_key b))
  else match r with REq => res = Ok false | RNe => res = Ok true | _ => res = Err TypeError end.
Definition whole_minutes (a : tm) : Prop := forall z o, ttz a = Some (z, o) -> to_us o mod 60000000 = 0.
