(** Model of class datetime in crosshair/libimpl/datetimelib.py 1717-2400 and of what it uses of
    class timezone (2429-2560).  The date part is a date object of Calendar_Model; the caches of
    date objects are read but their updates are not kept (Calendar_Model treats those).  A time
    zone is the identity of a tzinfo object; what its utcoffset method answers for a wall clock
    reading and fold is a parameter. *)
From Coq Require Import ZArith List Bool.
From Verif Require Import Py Calendar_Model Timedelta_Model.
Import ListNotations.
Open Scope Z_scope.

Record dt := mkDt { dp : dobj; hh : Z; mi : Z; se : Z; us : Z; zone : option nat; fold : Z }.

Section Zones.
(** for each read of an ordinal held date: see Calendar_Model *)
Variable concrete : Z -> bool.
Variable pick : Z -> Z * Z * Z.
(** answer of the tzinfo: zone, year, month, day, hour, minute, second, microsecond, fold *)
Variable tz_utcoffset : nat -> Z * Z * Z -> Z * Z * Z * Z -> Z -> option td.

(** 486-498 _check_time_fields *)
Definition check_time_fields (h m s u f : Z) : res unit :=
  if negb ((0 <=? h) && (h <=? 23)) then Err ValueError else
  if negb ((0 <=? m) && (m <=? 59)) then Err ValueError else
  if negb ((0 <=? s) && (s <=? 59)) then Err ValueError else
  if negb ((0 <=? u) && (u <=? 999999)) then Err ValueError else
  if negb ((f =? 0) || (f =? 1)) then Err ValueError else Ok tt.
(** 1725-1752 __init__ *)
Definition dt_new (y mo d h m s u : Z) (z : option nat) (f : Z) : res dt :=
  do _ <- check_date_fields y mo d;
  do _ <- check_time_fields h m s u f;
  do o <- date_new y mo d;
  Ok (mkDt o h m s u z f).
(** 2626-2637 _datetime_from_ordinal: the fold stays that of datetime(2020, 1, 1) *)
Definition dt_from_ordinal (n h m s u : Z) (z : option nat) : dt := mkDt (mkD None (Some n)) h m s u z 0.
(** 452-465 _check_utc_offset *)
Definition check_utc_offset (o : option td) : res (option td) :=
  match o with
  | None => Ok None
  | Some t => if m_cmp RLt (mkTd (-1) 0 0) t && m_cmp RLt t (mkTd 1 0 0) then Ok (Some t) else Err ValueError
  end.
(** 902-935 fields, without keeping the cache *)
Definition fields (a : dt) : res (Z * Z * Z) := do r <- decompose concrete pick (dp a); Ok (fst r).
Definition ordinal (a : dt) : res Z := do r <- toordinal (dp a); Ok (fst r).
(** 2176-2185 utcoffset *)
Definition utcoffset (a : dt) : res (option td) :=
  match zone a with
  | None => Ok None
  | Some z => do f <- fields a; check_utc_offset (tz_utcoffset z f (hh a, mi a, se a, us a) (fold a))
  end.
(** 2005-2039 replace(fold=...), replace(tzinfo=...) *)
Definition with_fold (a : dt) (f : Z) : res dt :=
  do d <- fields a; let '(y, mo, dd) := d in dt_new y mo dd (hh a) (mi a) (se a) (us a) (zone a) f.
Definition with_zone (a : dt) (z : option nat) : res dt :=
  do d <- fields a; let '(y, mo, dd) := d in dt_new y mo dd (hh a) (mi a) (se a) (us a) z (fold a).

(** equality of two offsets *)
Definition off_eq (a b : option td) : bool :=
  match a, b with
  | None, None => true
  | Some a, Some b => m_cmp REq a b
  | _, _ => false
  end.
Definition same_zone (a b : option nat) : bool :=
  match a, b with
  | None, None => true
  | Some a, Some b => Nat.eqb a b
  | _, _ => false
  end.

(** 2344-2367 __sub__ of two datetimes *)
Definition dt_diff (a b : dt) : res td :=
  do days1 <- ordinal a;
  do days2 <- ordinal b;
  let secs1 := se a + mi a * 60 + hh a * 3600 in
  let secs2 := se b + mi b * 60 + hh b * 3600 in
  do base <- td3 (days1 - days2) (secs1 - secs2) (us a - us b);
  if same_zone (zone a) (zone b) then Ok base else
  do myoff <- utcoffset a;
  do otoff <- utcoffset b;
  if off_eq myoff otoff then Ok base else
  match myoff, otoff with
  | Some m, Some o => do x <- m_add base o; m_sub x m
  | _, _ => Err TypeError
  end.
(** 2266-2318 _cmp *)
Definition dt_cmp (allow_mixed : bool) (a b : dt) : res Z :=
  do r <- (if same_zone (zone a) (zone b) then Ok (true, (None, None), false) else
           do myoff <- utcoffset a;
           do otoff <- utcoffset b;
           do two <- (if allow_mixed then
                        do a' <- with_fold a (if fold a =? 0 then 1 else 0);
                        do o' <- utcoffset a';
                        if negb (off_eq myoff o') then Ok true else
                        do b' <- with_fold b (if fold b =? 0 then 1 else 0);
                        do o'' <- utcoffset b';
                        Ok (negb (off_eq otoff o''))
                      else Ok false);
           Ok (off_eq myoff otoff, (myoff, otoff), two));
  let '(base_compare, (myoff, otoff), two) := r in
  if two then Ok 2 else
  if base_compare then
    match ymd (dp a), ymd (dp b) with
    | Some (y, m, d), Some (y', m', d') =>
        Ok (cmp [y; m; d; hh a; mi a; se a; us a] [y'; m'; d'; hh b; mi b; se b; us b])
    | _, _ => do n <- ordinal a; do n' <- ordinal b;
              Ok (cmp [n; hh a; mi a; se a; us a] [n'; hh b; mi b; se b; us b])
    end
  else match myoff, otoff with
  | Some _, Some _ => do diff <- dt_diff a b;
                      if days diff <? 0 then Ok (-1) else Ok (if m_bool diff then 1 else 0)
  | _, _ => if allow_mixed then Ok 2 else Err TypeError
  end.
(** 2220-2264 *)
Definition dt_rel (r : rel) (a b : dt) : res bool :=
  let mixed := match r with REq | RNe => true | _ => false end in
  do c <- dt_cmp mixed a b; Ok (rel_of r c).
(** 2320-2340 __add__ *)
Definition dt_add (a : dt) (t : td) : res dt :=
  do n <- ordinal a;
  do delta <- td_new n (se a) (us a) 0 (mi a) (hh a) 0;
  do delta <- m_add delta t;
  let hour := seconds delta / 3600 in let rem := seconds delta mod 3600 in
  let minute := rem / 60 in let second := rem mod 60 in
  if (0 <? days delta) && (days delta <=? MAXORDINAL)
  then Ok (dt_from_ordinal (days delta) hour minute second (microseconds delta) (zone a))
  else Err OverflowError.
(** 2344-2349 __sub__ of a timedelta *)
Definition dt_sub (a : dt) (t : td) : res dt := do m <- m_neg t; dt_add a m.
(** 2369-2387 __hash__: what is hashed (the state bytes stand for the fields) *)
Inductive hashed := HNaive (f : Z * Z * Z) (t : Z * Z * Z * Z) | HAware (t : td).
Definition dt_hash (a : dt) : res hashed :=
  do t <- (if fold a =? 0 then Ok a else with_fold a 0);
  do tzoff <- utcoffset t;
  do f <- fields t;
  match tzoff with
  | None => Ok (HNaive f (hh t, mi t, se t, us t))
  | Some o => let '(y, m, d) := f in
              do n <- ymd2ord y m d;
              do x <- td3 n (hh a * 3600 + mi a * 60 + se a) (us a);
              do x <- m_sub x o; Ok (HAware x)
  end.
(** 2057-2080 astimezone of an aware datetime, to a zone of class timezone, whose fromutc
    (2512-2517) adds its offset *)
Definition dt_astimezone (a : dt) (z : nat) (offset : td) : res dt :=
  match zone a with
  | None => Err NotImplementedE (* local time: not modelled *)
  | Some mz =>
      do myoff <- utcoffset a;
      match myoff with
      | None => Err NotImplementedE
      | Some o => if Nat.eqb z mz then Ok a else
                  do u <- dt_sub a o;
                  do u <- with_zone u (Some z);
                  dt_add u offset
      end
  end.
End Zones.

(** *** A date compared with a datetime.  Python asks the right operand first if its class
    derives from the left's; the C classes answer NotImplemented for the stand-ins. *)
Inductive dkind := ChDate | ChDatetime | RealDate | RealDatetime.
(** 1131-1157: date compares with any date by the day; 2220-2264: datetime with a date that is not a datetime *)
Definition date_method (r : rel) (n n' : Z) : res bool := Ok (rel_of r (cmp [n] [n'])).
Definition datetime_method (r : rel) : res bool :=
  match r with REq => Ok false | RNe => Ok true | _ => Err TypeError end.
(** [n], [n']: the days.  One operand a date, the other a datetime, not both real *)
Definition mixed_rel (r : rel) (k k' : dkind) (n n' : Z) : option (res bool) :=
  match k, k' with
  | ChDate, ChDatetime => Some (datetime_method r)   (* ChDatetime derives from ChDate: its method is asked first *)
  | ChDate, RealDatetime => Some (date_method r n n')
  | ChDatetime, (ChDate | RealDate) => Some (datetime_method r)
  | RealDate, ChDatetime => Some (datetime_method r) (* reflected *)
  | RealDatetime, ChDate => Some (date_method (swap_rel r) n' n) (* reflected *)
  | _, _ => None
  end.

(** *** Class time, 1374-1700 *)
(** a time zone is its identity and its offset *)
Record tm := mkTm { th : Z; tmi : Z; ts : Z; tus : Z; ttz : option (nat * td) }.
Definition t_off (a : tm) : option td := option_map snd (ttz a).
Definition t_same (a b : tm) : bool := same_zone (option_map fst (ttz a)) (option_map fst (ttz b)).
Definition minute_td := mkTd 0 60 0.
(** 1483-1513 _cmp *)
Definition tm_cmp (allow_mixed : bool) (a b : tm) : res Z :=
  if t_same a b || off_eq (t_off a) (t_off b)
  then Ok (cmp [th a; tmi a; ts a; tus a] [th b; tmi b; ts b; tus b])
  else match t_off a, t_off b with
  | Some oa, Some ob =>
      do qa <- m_floordiv oa minute_td;
      do qb <- m_floordiv ob minute_td;
      Ok (cmp [th a * 60 + tmi a - qa; ts a; tus a] [th b * 60 + tmi b - qb; ts b; tus b])
  | _, _ => if allow_mixed then Ok 2 else Err TypeError
  end.
(** 1447-1481 *)
Definition tm_rel (r : rel) (a b : tm) : res bool :=
  do c <- tm_cmp (match r with REq | RNe => true | _ => false end) a b; Ok (rel_of r c).
(** 1515-1539 __hash__: what is hashed (replacing the fold changes nothing here) *)
Inductive thashed := HTime (h m s u : Z) | HTuple (h : Z) (m : Z) (s u : Z).
Definition tm_hash (a : tm) : res thashed :=
  match t_off a with
  | None => Ok (HTime (th a) (tmi a) (ts a) (tus a))
  | Some o => if negb (m_bool o) then Ok (HTime (th a) (tmi a) (ts a) (tus a)) else
      do x <- td_new 0 0 0 0 (tmi a) (th a) 0;
      do x <- m_sub x o;
      do hm <- m_divmod x (mkTd 0 3600 0);
      let '(h, m) := hm in
      do w <- m_mod m minute_td;
      if m_bool w then Err AssertionError else
      do m <- m_floordiv m minute_td;
      Ok (if (0 <=? h) && (h <? 24) then HTime h m (ts a) (tus a) else HTuple h m (ts a) (tus a))
  end.

(** *** Making symbolic values: 2659-2667, 2675-2711.  A symbolic time zone is UTC or has the
    offset of a symbolic timedelta; what a datetime is made of, with the fold it gets. *)
Definition maxoffset : td := mkTd 0 86399 999999.
Definition minoffset : td := mkTd (-1) 0 1.
Definition make_timezone (explicit : bool) (delta : td) : option td :=
  if explicit then if m_cmp RLt minoffset delta && m_cmp RLt delta maxoffset then Some delta else None else Some (mkTd 0 0 0).
Definition in_bounds (lo hi x : Z) : bool := (lo <=? x) && (x <=? hi).
Definition make_datetime (ordinal h m s u f : Z) (z : option nat) : option dt :=
  if in_bounds 1 MAXORDINAL ordinal && in_bounds 0 23 h && in_bounds 0 59 m && in_bounds 0 59 s && in_bounds 0 999999 u && in_bounds 0 1 f
  then Some (dt_from_ordinal ordinal h m s u z) else None.
Definition make_time (h m s u f : Z) (z : option (nat * td)) : option (tm * Z) :=
  if in_bounds 0 23 h && in_bounds 0 59 m && in_bounds 0 59 s && in_bounds 0 999999 u && in_bounds 0 1 f
  then Some (mkTm h m s u z, f) else None.
