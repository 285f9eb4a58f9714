(** Model of isoformat and fromisoformat in crosshair/libimpl/datetimelib.py: 224-262, 327-417,
    973-983, 1062-1074, 1540-1596, 1876-1899, 2098-2129, and class timezone's constructor
    2435-2451.  A string is its list of code points; a time zone is its fixed offset; integers
    are read under one assignment of the symbolic ones. *)
From Coq Require Import ZArith List Bool.
From Verif Require Import Py Calendar_Model Timedelta_Model Datetime_Model.
Import ListNotations.
Open Scope Z_scope.

(** decimal digits of n >= 0, in front of [acc] *)
Fixpoint show (fuel : nat) (n : Z) (acc : list Z) : list Z :=
  match fuel with
  | O => acc
  | S fuel => if n <? 10 then 48 + n :: acc else show fuel (n / 10) (48 + n mod 10 :: acc)
  end.
(** "%0wd" % n, "{:0wd}".format(n) *)
Definition pad (w : nat) (n : Z) : list Z :=
  let '(sign, n) := if n <? 0 then ([45], - n) else ([], n) in
  let d := show (S (Z.to_nat (Z.log2 n))) n [] in
  sign ++ repeat 48 (w - length sign - length d) ++ d.

Inductive timespec := Auto | Hours | Minutes | Seconds | Milliseconds | Microseconds | OtherSpec.
(** 224-244 _format_time *)
Definition format_time (hh mm ss us : Z) (spec : timespec) : res (list Z) :=
  let spec' := match spec with Auto => if negb (us =? 0) then Microseconds else Seconds | s => s end in
  let us := match spec with Milliseconds => us / 1000 | _ => us end in
  match spec' with
  | Hours => Ok (pad 2 hh)
  | Minutes => Ok (pad 2 hh ++ [58] ++ pad 2 mm)
  | Seconds => Ok (pad 2 hh ++ [58] ++ pad 2 mm ++ [58] ++ pad 2 ss)
  | Milliseconds => Ok (pad 2 hh ++ [58] ++ pad 2 mm ++ [58] ++ pad 2 ss ++ [46] ++ pad 3 us)
  | Microseconds => Ok (pad 2 hh ++ [58] ++ pad 2 mm ++ [58] ++ pad 2 ss ++ [46] ++ pad 6 us)
  | _ => Err ValueError
  end.
(** 247-263 _format_offset *)
Definition format_offset (off : option td) : res (list Z) :=
  match off with
  | None => Ok []
  | Some off =>
      do so <- (if days off <? 0 then do n <- m_neg off; Ok (45, n) else Ok (43, off));
      let '(sign, off) := so in
      do q <- m_divmod off (mkTd 0 3600 0);
      let '(hh, mm) := q in
      do q <- m_divmod mm (mkTd 0 60 0);
      let '(mm, ss) := q in
      let s := [sign] ++ pad 2 hh ++ [58] ++ pad 2 mm in
      Ok (if m_bool ss || negb (microseconds ss =? 0)
          then s ++ [58] ++ pad 2 (seconds ss) ++
               (if negb (microseconds ss =? 0) then [46] ++ pad 6 (microseconds ss) else [])
          else s)
  end.

(** 1074 *)
Definition date_iso (y m d : Z) : list Z := pad 4 y ++ [45] ++ pad 2 m ++ [45] ++ pad 2 d.
(** 1540-1542, 1566-1583: time.isoformat; the offset passes _check_utc_offset (452-465) *)
Definition time_iso (h m s u : Z) (z : option td) (spec : timespec) : res (list Z) :=
  do t <- format_time h m s u spec;
  do off <- check_utc_offset z;
  do o <- format_offset off;
  Ok (t ++ o).
(** 2098-2129 datetime.isoformat *)
Definition datetime_iso (y mo d h m s u : Z) (z : option td) (sep : Z) (spec : timespec) : res (list Z) :=
  do t <- format_time h m s u spec;
  do off <- check_utc_offset z;
  do o <- format_offset off;
  Ok ((date_iso y mo d ++ [sep] ++ t) ++ o).

Section Parse.
(** int() of a string *)
Variable int : list Z -> res Z.
Definition slice (a b : nat) (s : list Z) : list Z := firstn (b - a) (skipn a s).
Definition char (i : nat) (s : list Z) : res Z := match nth_error s i with Some c => Ok c | None => Err IndexError end.
(** 327-342 _parse_isoformat_date *)
Definition parse_date (s : list Z) : res (Z * Z * Z) :=
  do year <- int (slice 0 4 s);
  do c <- char 4 s;
  if negb (c =? 45) then Err ValueError else
  do month <- int (slice 5 7 s);
  do c <- char 7 s;
  if negb (c =? 45) then Err ValueError else
  do day <- int (slice 8 10 s);
  Ok (year, month, day).
(** 345-366: the loop over hour, minute, second; [todo] of them left.  The numbers and where it stopped *)
Fixpoint hh_mm_ss (s : list Z) (todo : nat) (pos : nat) : res (list Z * nat) :=
  match todo with
  | O => Ok ([], pos)
  | S todo =>
      if (length s - pos <? 2)%nat then Err ValueError else
      do v <- int (slice pos (pos + 2) s);
      let pos := (pos + 2)%nat in
      match slice pos (pos + 1) s, todo with
      | [], _ => Ok ([v], pos)
      | _, O => Ok ([v], pos)
      | next :: _, _ => if negb (next =? 58) then Err ValueError else
                        do r <- hh_mm_ss s todo (pos + 1); Ok (v :: fst r, snd r)
      end
  end.
(** 345-383 _parse_hh_mm_ss_ff *)
Definition parse_clock (s : list Z) : res (Z * Z * Z * Z) :=
  do r <- hh_mm_ss s 3 0;
  let '(l, pos) := r in
  let at_ i := nth i l 0 in
  do us <- (if (pos <? length s)%nat then
              do c <- char pos s;
              if negb (c =? 46) then Err ValueError else
              let pos := (pos + 1)%nat in
              let rest := (length s - pos)%nat in
              if negb ((rest =? 3)%nat || (rest =? 6)%nat) then Err ValueError else
              do v <- int (skipn pos s);
              Ok (if (rest =? 3)%nat then v * 1000 else v)
            else Ok 0);
  Ok (at_ 0%nat, at_ 1%nat, at_ 2%nat, us).
(** str.find of a character, plus one: 0 if there is none *)
Fixpoint find1 (c : Z) (s : list Z) : nat :=
  match s with
  | [] => 0
  | x :: s => if x =? c then 1 else match find1 c s with O => O | S k => S (S k) end
  end.
(** 2435-2451 timezone(offset) *)
Definition timezone_new (o : td) : res td :=
  if negb (m_bool o) then Ok (mkTd 0 0 0)
  else if negb (m_cmp RLe minoffset o && m_cmp RLe o maxoffset) then Err ValueError else Ok o.
(** 386-430 _parse_isoformat_time *)
Definition parse_time (s : list Z) : res (Z * Z * Z * Z * option td) :=
  if (length s <? 2)%nat then Err ValueError else
  let tz_pos := match find1 45 s with O => find1 43 s | k => k end in
  let timestr := if (0 <? tz_pos)%nat then firstn (tz_pos - 1) s else s in
  do c <- parse_clock timestr;
  if (0 <? tz_pos)%nat then
    let tzstr := skipn tz_pos s in
    if negb ((length tzstr =? 5)%nat || (length tzstr =? 8)%nat || (length tzstr =? 15)%nat) then Err ValueError else
    do z <- parse_clock tzstr;
    let '(zh, zm, zs, zu) := z in
    if (zh =? 0) && (zm =? 0) && (zs =? 0) && (zu =? 0) then Ok (c, Some (mkTd 0 0 0)) else
    do sign <- char (tz_pos - 1) s;
    do t <- td_new 0 zs zu 0 zm zh 0;
    do o <- m_mul t (if sign =? 45 then -1 else 1);
    do o <- timezone_new o;
    Ok (c, Some o)
  else Ok (c, None).

(** any exception becomes ValueError; [except ValueError] keeps the others *)
Definition all_as_value_error {A} (r : res A) : res A := match r with Ok x => Ok x | Err _ => Err ValueError end.
(** 973-983 date.fromisoformat: the fields of the date *)
Definition date_from_iso (s : list Z) : res (Z * Z * Z) :=
  all_as_value_error
    (if negb (length s =? 10)%nat then Err AssertionError else
     do f <- parse_date s; let '(y, m, d) := f in do _ <- check_date_fields y m d; Ok f).
(** 1587-1596 time.fromisoformat *)
Definition time_from_iso (s : list Z) : res (Z * Z * Z * Z * option td) :=
  all_as_value_error
    (do t <- parse_time s; let '((h, m, x, u), z) := t in do _ <- check_time_fields h m x u 0; Ok t).
(** 1876-1899 datetime.fromisoformat *)
Definition datetime_from_iso (s : list Z) : res (Z * Z * Z * (Z * Z * Z * Z * option td)) :=
  let dstr := slice 0 10 s in
  let tstr := skipn 11 s in
  do f <- parse_date dstr;
  do t <- match tstr with [] => Ok (0, 0, 0, 0, None) | _ => parse_time tstr end;
  let '(y, mo, d) := f in
  let '((h, m, x, u), z) := t in
  do _ <- check_date_fields y mo d;
  do _ <- check_time_fields h m x u 0;
  Ok (f, t).
End Parse.
