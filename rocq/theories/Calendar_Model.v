(** Model of crosshair/libimpl/datetimelib.py 43-200, 474-483, 866-1250, 2417-2426, 2604-2656: the
    calendar arithmetic behind symbolic dates, and date objects.  Integers are read under one
    assignment of the symbolic ones; Python's // and % are Z.div and Z.modulo. *)
From Coq Require Import ZArith List Bool.
From Verif Require Import Py.
Import ListNotations.
Open Scope Z_scope.

(** bool as a number *)
Definition b2z (b : bool) : Z := if b then 1 else 0.

(** 43-50 _lex_lt: any of all, 53-57 _cmp *)
Definition lex_lt (l r : list Z) : bool :=
  existsb (fun i => forallb (fun j => nth j l 0 =? nth j r 0) (seq 0 i) && (nth i l 0 <? nth i r 0)) (seq 0 (length l)).
Definition cmp (x y : list Z) : Z := b2z (lex_lt y x) - b2z (lex_lt x y).

(** 67-69 *)
Definition MINYEAR := 1.
Definition MAXYEAR := 9999.
Definition MAXORDINAL := 3652059.
(** 73 *)
Definition DAYS_IN_MONTH : list Z := [-1; 31; 28; 31; 30; 31; 30; 31; 31; 30; 31; 30; 31].
(** 75-80 *)
Definition DAYS_BEFORE_MONTH : list Z :=
  -1 :: snd (fold_left (fun '(dbm, l) dim => (dbm + dim, l ++ [dbm])) (tl DAYS_IN_MONTH) (0, [])).
Definition at_ (l : list Z) (i : Z) : Z := nth (Z.to_nat i) l 0.
(** 83-85 *)
Definition is_leap (year : Z) : bool := (year mod 4 =? 0) && (negb (year mod 100 =? 0) || (year mod 400 =? 0)).
(** 88-95 *)
Definition is_leap_int (year : Z) : Z :=
  b2z (year mod 4 =? 0) * (1 - b2z (year mod 100 =? 0) * b2z (negb (year mod 400 =? 0))).
(** 98-101 *)
Definition days_before_year (year : Z) : Z :=
  let y := year - 1 in y * 365 + y / 4 - y / 100 + y / 400.
(** 104-116 *)
Definition days_in_month (year month : Z) : res Z :=
  if negb ((1 <=? month) && (month <=? 12)) then Err AssertionError else
  Ok (if 8 <=? month then if month mod 2 =? 0 then 31 else 30
      else if month =? 2 then 28 + is_leap_int year
      else if month mod 2 =? 0 then 30 else 31).
(** 119-140 *)
Definition day_in_month_constraint (year month day : Z) : bool :=
  ((day <=? 28 + is_leap_int year) && (month =? 2))
  || ((day <=? 30) && ((month =? 4) || (month =? 6) || (month =? 9) || (month =? 11)))
  || ((day <=? 31) && ((month =? 1) || (month =? 3) || (month =? 5) || (month =? 7) || (month =? 8) || (month =? 10) || (month =? 12))).
(** 143-146 *)
Definition days_before_month (year month : Z) : res Z :=
  if negb ((1 <=? month) && (month <=? 12)) then Err AssertionError
  else Ok (at_ DAYS_BEFORE_MONTH month + b2z (2 <? month) * is_leap_int year).
(** 149-154 *)
Definition ymd2ord (year month day : Z) : res Z :=
  if negb ((1 <=? month) && (month <=? 12)) then Err AssertionError else
  do dim <- days_in_month year month;
  if negb ((1 <=? day) && (day <=? dim)) then Err AssertionError else
  do dbm <- days_before_month year month;
  Ok (days_before_year year + dbm + day).
(** 157-159 *)
Definition DI400Y := days_before_year 401.
Definition DI100Y := days_before_year 101.
Definition DI4Y := days_before_year 5.
(** 174-198 *)
Definition ord2ymd (n : Z) : res (Z * Z * Z) :=
  let n := n - 1 in
  let n400 := n / DI400Y in let n := n mod DI400Y in
  let year := n400 * 400 + 1 in
  let n100 := n / DI100Y in let n := n mod DI100Y in
  let n4 := n / DI4Y in let n := n mod DI4Y in
  let n1 := n / 365 in let n := n mod 365 in
  let year := year + (n100 * 100 + n4 * 4 + n1) in
  if (n1 =? 4) || (n100 =? 4) then if n =? 0 then Ok (year - 1, 12, 31) else Err AssertionError else
  let leapyear := (n1 =? 3) && (negb (n4 =? 24) || (n100 =? 3)) in
  if negb (Bool.eqb leapyear (is_leap year)) then Err AssertionError else
  let month := Z.shiftr (n + 50) 5 in
  let preceding := at_ DAYS_BEFORE_MONTH month + b2z ((2 <? month) && leapyear) in
  let '(month, preceding) :=
    if n <? preceding then
      let month := month - 1 in
      (month, preceding - (at_ DAYS_IN_MONTH month + b2z ((month =? 2) && leapyear)))
    else (month, preceding) in
  let n := n - preceding in
  do dim <- days_in_month year month;
  if negb ((0 <=? n) && (n <? dim)) then Err AssertionError else Ok (year, month, n + 1).

(** 474-483 _check_date_fields *)
Definition check_date_fields (year month day : Z) : res (Z * Z * Z) :=
  if negb ((MINYEAR <=? year) && (year <=? MAXYEAR)) then Err ValueError else
  if negb ((1 <=? month) && (month <=? 12)) then Err ValueError else
  do dim <- days_in_month year month;
  if negb ((1 <=? day) && (day <=? dim)) then Err ValueError else Ok (year, month, day).

(** 2417-2426 _isoweek1monday *)
Definition isoweek1monday (year : Z) : res Z :=
  do firstday <- ymd2ord year 1 1;
  let firstweekday := (firstday + 6) mod 7 in
  let week1monday := firstday - firstweekday in
  Ok (if 3 <? firstweekday then week1monday + 7 else week1monday).

(** *** Date objects: 866-900 __init__; both fields are caches of each other *)
Record dobj := mkD { ymd : option (Z * Z * Z); ord : option Z }.
(** what is assumed of the variables of 918-934: the fresh fields satisfy the bridge and the
    day constraint.  [pick] is the assignment's choice of them for this ordinal. *)
Definition bridge (ordinal : Z) (f : Z * Z * Z) : bool :=
  let '(year, month, day) := f in
  (MINYEAR <=? year) && (year <=? MAXYEAR) && (1 <=? month) && (month <=? 12) && (1 <=? day) && (day <=? 31)
  && (ordinal =? days_before_year year + at_ DAYS_BEFORE_MONTH month + b2z (2 <? month) * is_leap_int year + day)
  && day_in_month_constraint year month day.

Section Objects.
(** for each read, whether the ordinal is a concrete int, and the fields chosen if it is not *)
Variable concrete : Z -> bool.
Variable pick : Z -> Z * Z * Z.
(** 902-937 _decompose *)
Definition decompose (o : dobj) : res ((Z * Z * Z) * dobj) :=
  match ymd o with
  | Some f => Ok (f, o)
  | None =>
      match ord o with
      | None => Err TypeError
      | Some ordinal => do f <- (if concrete ordinal then ord2ymd ordinal else Ok (pick ordinal));
                        Ok (f, mkD (Some f) (ord o))
      end
  end.
(** 1101-1117 toordinal *)
Definition toordinal (o : dobj) : res (Z * dobj) :=
  match ord o with
  | Some n => Ok (n, o)
  | None => match ymd o with
            | None => Err TypeError
            | Some (y, m, d) => do n <- ymd2ord y m d; Ok (n, mkD (ymd o) (Some n))
            end
  end.
(** 874-900 *)
Definition date_new (year month day : Z) : res dobj :=
  do f <- check_date_fields year month day; Ok (mkD (Some f) None).
(** 2604-2609 *)
Definition date_from_ordinal (n : Z) : dobj := mkD None (Some n).

Definition heap := list dobj.
Definition geto (h : heap) (i : nat) : dobj := nth i h (mkD None None).
Fixpoint seto (h : heap) (i : nat) (o : dobj) : heap :=
  match h, i with
  | [], _ => []
  | _ :: h, O => o :: h
  | x :: h, S i => x :: seto h i o
  end.

Inductive rel := REq | RNe | RLt | RLe | RGt | RGe.
Definition rel_of (r : rel) (c : Z) : bool :=
  match r with REq => c =? 0 | RNe => negb (c =? 0) | RLt => c <? 0 | RLe => c <=? 0 | RGt => 0 <? c | RGe => 0 <=? c end.

(** Calls on dates *)
Inductive dop :=
| New (y m d : Z)              (* date(y, m, d) *)
| FromOrdinal (n : Z)          (* date.fromordinal *)
| FromIso (y w d : Z)          (* date.fromisocalendar *)
| Fields (i : nat)             (* (d.year, d.month, d.day) *)
| ToOrdinal (i : nat) | Weekday (i : nat) | IsoWeekday (i : nat) | IsoCalendar (i : nat)
| Replace (i : nat) (y m d : option Z)
| Compare (r : rel) (i j : nat)
| AddDays (i : nat) (days : Z) (* d + timedelta: only its days matter *)
| SubDays (i : nat) (days : Z)
| Diff (i j : nat).            (* d - e *)
Inductive dres := DObj (i : nat) | DTriple (t : Z * Z * Z) | DInt (z : Z) | DBool (b : bool) | DDays (z : Z) | DErr (e : exc).

Definition dnew (h : heap) (r : res dobj) : dres * heap :=
  match r with Ok o => (DObj (length h), h ++ [o]) | Err e => (DErr e, h) end.

(** 963-972, 986-1019 fromordinal, fromisocalendar *)
Definition m_fromordinal (n : Z) : res dobj :=
  do f <- ord2ymd n; let '(y, m, d) := f in date_new y m d.
Definition m_fromisocalendar (year week day : Z) : res dobj :=
  if negb ((MINYEAR <=? year) && (year <=? MAXYEAR)) then Err ValueError else
  do out_of_range <- (if negb ((0 <? week) && (week <? 53)) then
                        if week =? 53 then
                          do fd <- ymd2ord year 1 1;
                          let first_weekday := fd mod 7 in
                          Ok (negb ((first_weekday =? 4) || ((first_weekday =? 3) && is_leap year)))
                        else Ok true
                      else Ok false);
  if out_of_range then Err ValueError else
  if negb ((0 <? day) && (day <? 8)) then Err ValueError else
  let day_offset := (week - 1) * 7 + (day - 1) in
  do day_1 <- isoweek1monday year;
  m_fromordinal (day_1 + day_offset).
(** 1214-1241 isocalendar of decomposed fields *)
Definition isocalendar (f : Z * Z * Z) : res (Z * Z * Z) :=
  let '(year, month, day) := f in
  do week1monday <- isoweek1monday year;
  do today <- ymd2ord year month day;
  let week := (today - week1monday) / 7 in
  let day := (today - week1monday) mod 7 in
  if week <? 0 then
    let year := year - 1 in
    do week1monday <- isoweek1monday year;
    Ok (year, (today - week1monday) / 7 + 1, (today - week1monday) mod 7 + 1)
  else if 52 <=? week then
    do next <- isoweek1monday (year + 1);
    if next <=? today then Ok (year + 1, 1, day + 1) else Ok (year, week + 1, day + 1)
  else Ok (year, week + 1, day + 1).
(** 1159-1171 _cmp *)
Definition date_cmp (h : heap) (i j : nat) : res (Z * heap) :=
  let a := geto h i in let b := geto h j in
  match ymd a, ymd b with
  | Some (y, m, d), Some (y2, m2, d2) => Ok (cmp [y; m; d] [y2; m2; d2], h)
  | _, _ => do ra <- toordinal a; let h := seto h i (snd ra) in
            do rb <- toordinal (geto h j); let h := seto h j (snd rb) in
            Ok (cmp [fst ra] [fst rb], h)
  end.
(** 1180-1189 __add__ *)
Definition date_add (h : heap) (i : nat) (days : Z) : res dobj * heap :=
  match toordinal (geto h i) with
  | Err e => (Err e, h)
  | Ok (n, o) => let h := seto h i o in
                 let s := n + days in
                 (if (0 <? s) && (s <=? MAXORDINAL) then Ok (date_from_ordinal s) else Err OverflowError, h)
  end.
Definition dstep (h : heap) (op : dop) : dres * heap :=
  match op with
  | New y m d => dnew h (date_new y m d)
  | FromOrdinal n => dnew h (m_fromordinal n)
  | FromIso y w d => dnew h (m_fromisocalendar y w d)
  | Fields i => match decompose (geto h i) with
                | Ok (f, o) => (DTriple f, seto h i o) | Err e => (DErr e, h) end
  | ToOrdinal i => match toordinal (geto h i) with
                   | Ok (n, o) => (DInt n, seto h i o) | Err e => (DErr e, h) end
  (* 1203-1212 *)
  | Weekday i => match toordinal (geto h i) with
                 | Ok (n, o) => (DInt ((n + 6) mod 7), seto h i o) | Err e => (DErr e, h) end
  | IsoWeekday i => match toordinal (geto h i) with
                    | Ok (n, o) => (DInt (if n mod 7 =? 0 then 7 else n mod 7), seto h i o) | Err e => (DErr e, h) end
  | IsoCalendar i => match decompose (geto h i) with
                     | Ok (f, o) => (match isocalendar f with Ok t => DTriple t | Err e => DErr e end, seto h i o)
                     | Err e => (DErr e, h) end
  (* 1119-1127: an omitted field is read from the date *)
  | Replace i y m d =>
      match y, m, d with
      | Some y, Some m, Some d => dnew h (date_new y m d)
      | _, _, _ =>
        match decompose (geto h i) with
        | Ok ((y0, m0, d0), o) =>
            let def x z := match x with None => z | Some v => v end in
            dnew (seto h i o) (date_new (def y y0) (def m m0) (def d d0))
        | Err e => (DErr e, h)
        end
      end
  | Compare r i j => match date_cmp h i j with Ok (c, h) => (DBool (rel_of r c), h) | Err e => (DErr e, h) end
  | AddDays i days => let '(r, h) := date_add h i days in dnew h r
  (* 1193-1197 self + timedelta(-other.days) *)
  | SubDays i days => let '(r, h) := date_add h i (- days) in dnew h r
  (* 1198-1201 *)
  | Diff i j => match toordinal (geto h i) with
                | Err e => (DErr e, h)
                | Ok (a, o) => let h := seto h i o in
                  match toordinal (geto h j) with
                  | Err e => (DErr e, h)
                  | Ok (b, o) => (DDays (a - b), seto h j o)
                  end
                end
  end.
Fixpoint drun (h : heap) (ops : list dop) : list dres * heap :=
  match ops with
  | [] => ([], h)
  | o :: ops => let '(r, h) := dstep h o in let '(rs, h) := drun h ops in (r :: rs, h)
  end.
End Objects.
