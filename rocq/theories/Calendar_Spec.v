(** The Gregorian calendar and what calls on dates give, independent of the code.  A date is
    its number: 0001-01-01 is day 1, and each day follows the one before. *)
From Coq Require Import ZArith List Bool.
From Verif Require Import Py Calendar_Model.
Import ListNotations.
Open Scope Z_scope.

(** years divisible by 4, except centuries that are not divisible by 400 *)
Definition s_leap (y : Z) : bool := if y mod 100 =? 0 then y mod 400 =? 0 else y mod 4 =? 0.
Definition month_length (y m : Z) : Z :=
  if m =? 2 then (if s_leap y then 29 else 28)
  else if existsb (Z.eqb m) [4; 6; 9; 11] then 30 else 31.
Definition next_day (f : Z * Z * Z) : Z * Z * Z :=
  let '(y, m, d) := f in
  if d <? month_length y m then (y, m, d + 1)
  else if m <? 12 then (y, m + 1, 1)
  else (y + 1, 1, 1).
(** the n-th day *)
Definition s_date (n : Z) : Z * Z * Z := Nat.iter (Z.to_nat (n - 1)) next_day (1, 1, 1).
Definition s_year (n : Z) : Z := fst (fst (s_date n)).
(** dates run from 0001-01-01 to 9999-12-31 *)
Definition in_range (n : Z) : Prop := 1 <= n /\ s_year n <= 9999.
(** Monday is 0; day 1 was a Monday *)
Definition s_weekday (n : Z) : Z := (n - 1) mod 7.
(** ISO 8601: a week belongs to the year of its Thursday; the weeks of a year are counted
    from 1 by their Thursdays *)
Definition iso (n : Z) (t : Z * Z * Z) : Prop :=
  let thursday := n - s_weekday n + 3 in
  let '(y, w, d) := t in
  s_year thursday = y /\ d = s_weekday n + 1 /\
  exists jan1, 1 <= jan1 /\ s_date jan1 = (y, 1, 1) /\ w = (thursday - jan1) / 7 + 1.

Definition s_rel (r : rel) (a b : Z) : bool :=
  match r with REq => a =? b | RNe => negb (a =? b) | RLt => a <? b | RLe => a <=? b | RGt => b <? a | RGe => b <=? a end.
Definition orelse (x : option Z) (z : Z) : Z := match x with None => z | Some v => v end.

(** A call makes a new date: the one that satisfies [is], or the exception if there is none *)
Inductive makes (is : Z -> Prop) (e : exc) (h : list Z) : dres -> list Z -> Prop :=
| Makes n : in_range n -> is n -> makes is e h (DObj (length h)) (h ++ [n])
| MakesNot : (forall n, in_range n -> ~ is n) -> makes is e h (DErr e) h.

(** What a call gives, when the dates made so far are [h] *)
Inductive spec (h : list Z) : dop -> dres -> list Z -> Prop :=
| S_New y m d r h' : makes (fun n => s_date n = (y, m, d)) ValueError h r h' -> spec h (New y m d) r h'
| S_FromOrdinal n r h' : makes (fun k => k = n) ValueError h r h' -> spec h (FromOrdinal n) r h'
| S_FromIso y w d r h' : makes (fun n => iso n (y, w, d)) ValueError h r h' -> spec h (FromIso y w d) r h'
| S_Fields i n : nth_error h i = Some n -> spec h (Fields i) (DTriple (s_date n)) h
| S_ToOrdinal i n : nth_error h i = Some n -> spec h (ToOrdinal i) (DInt n) h
| S_Weekday i n : nth_error h i = Some n -> spec h (Weekday i) (DInt (s_weekday n)) h
| S_IsoWeekday i n : nth_error h i = Some n -> spec h (IsoWeekday i) (DInt (s_weekday n + 1)) h
| S_IsoCalendar i n t : nth_error h i = Some n -> iso n t -> spec h (IsoCalendar i) (DTriple t) h
| S_Replace i n y m d y0 m0 d0 r h' : nth_error h i = Some n -> s_date n = (y0, m0, d0) ->
    makes (fun k => s_date k = (orelse y y0, orelse m m0, orelse d d0)) ValueError h r h' -> spec h (Replace i y m d) r h'
| S_Compare r i j a b : nth_error h i = Some a -> nth_error h j = Some b -> spec h (Compare r i j) (DBool (s_rel r a b)) h
| S_AddDays i n days r h' : nth_error h i = Some n -> makes (fun k => k = n + days) OverflowError h r h' -> spec h (AddDays i days) r h'
| S_SubDays i n days r h' : nth_error h i = Some n -> makes (fun k => k = n - days) OverflowError h r h' -> spec h (SubDays i days) r h'
| S_Diff i j a b : nth_error h i = Some a -> nth_error h j = Some b -> spec h (Diff i j) (DDays (a - b)) h.
Inductive specs : list Z -> list dop -> list dres -> Prop :=
| SS_nil h : specs h [] []
| SS_cons h o r h' os rs : spec h o r h' -> specs h' os rs -> specs h (o :: os) (r :: rs).

(** the dates a call is about exist *)
Definition refers (n : nat) (o : dop) : Prop :=
  match o with
  | New _ _ _ | FromOrdinal _ | FromIso _ _ _ => True
  | Fields i | ToOrdinal i | Weekday i | IsoWeekday i | IsoCalendar i | Replace i _ _ _ | AddDays i _ | SubDays i _ => (i < n)%nat
  | Compare _ i j | Diff i j => (i < n)%nat /\ (j < n)%nat
  end.
(** and are all made by then: every call after the k-th can use the dates made before *)
Fixpoint well_formed (h : list dres) (n : nat) (os : list dop) : Prop :=
  match os, h with
  | o :: os, r :: h => refers n o /\ well_formed h (match r with DObj _ => S n | _ => n end) os
  | _, _ => True
  end.
