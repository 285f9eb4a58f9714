(** Model of strftime of dates and times: crosshair/libimpl/datetimelib.py 266-333 (_wrap_strftime).
    A text is the list of its characters.  The object has a microsecond, a UTC offset and the name of
    a time zone, or not: [None] stands for a missing attribute, [Some None] for the value None.  An
    offset is its number of microseconds.  time.strftime is the function [c_strftime] of what it
    writes for the letter after a per cent sign, and for a per cent sign at the end; flags and widths
    of the C library (as in %-d) are not modelled. *)
From Coq Require Import ZArith List Bool.
Import ListNotations.
Open Scope Z_scope.
Definition text := list Z.
Definition percent : Z := 37.
Record stamp := Stamp { microsecond : option Z; utcoffset : option (option Z); tzname : option (option text) }.

(** %02d and %06d of numbers in range *)
Definition d2 (n : Z) : text := [48 + n / 10; 48 + n mod 10].
Definition d6 (n : Z) : text :=
  [48 + n / 100000; 48 + n / 10000 mod 10; 48 + n / 1000 mod 10; 48 + n / 100 mod 10; 48 + n / 10 mod 10; 48 + n mod 10].
(** 285-287 *)
Definition f_replace (o : stamp) : text := d6 (match microsecond o with Some u => u | None => 0 end).
(** 289-313 *)
Definition z_text (offset : Z) : text :=
  let sign := if offset <? 0 then 45 else 43 in
  let offset := if offset <? 0 then - offset else offset in
  let h := offset / 3600000000 in let rest := offset mod 3600000000 in
  let m := rest / 60000000 in let rest := rest mod 60000000 in
  let s := rest / 1000000 in
  let u := offset mod 1000000 in
  if negb (u =? 0) then sign :: d2 h ++ d2 m ++ d2 s ++ 46 :: d6 u
  else if negb (s =? 0) then sign :: d2 h ++ d2 m ++ d2 s
  else sign :: d2 h ++ d2 m.
Definition z_replace (o : stamp) : text :=
  match utcoffset o with Some (Some off) => z_text off | _ => [] end.
(** 316-323: s.replace("%", "%%") *)
Fixpoint escape (s : text) : text :=
  match s with [] => [] | c :: r => if c =? percent then percent :: percent :: escape r else c :: escape r end.
Definition Z_replace (o : stamp) : text :=
  match tzname o with Some (Some s) => escape s | _ => [] end.
(** 275-331: f is 102, z is 122, Z is 90 *)
Fixpoint new_format (o : stamp) (format : text) : text :=
  match format with
  | [] => []
  | ch :: r =>
      if ch =? percent
      then match r with
           | [] => [percent]
           | ch :: r =>
               (if ch =? 102 then f_replace o
                else if ch =? 122 then z_replace o
                else if ch =? 90 then Z_replace o
                else [percent; ch]) ++ new_format o r
           end
      else ch :: new_format o r
  end.
Section Library.
Variable letter : Z -> text.
Variable at_end : text.
(** time.strftime *)
Fixpoint c_strftime (format : text) : text :=
  match format with
  | [] => []
  | c :: r => if c =? percent
              then match r with [] => at_end | x :: r => letter x ++ c_strftime r end
              else c :: c_strftime r
  end.
(** 332-333 *)
Definition wrap_strftime (o : stamp) (format : text) : text := c_strftime (new_format o format).
End Library.
