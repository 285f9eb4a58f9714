(** ISO 8601 texts of dates, times and datetimes as Python defines them, independent of the code. *)
From Coq Require Import ZArith List Bool.
From Verif Require Import Py Calendar_Spec Timedelta_Model Timedelta_Spec Parse_Spec Iso_Model.
Import ListNotations.
Open Scope Z_scope.

(** n written with exactly w digits *)
Definition written (w : nat) (n : Z) (s : list Z) : Prop := length s = w /\ forallb digit s = true /\ number s = n.

(** YYYY-MM-DD *)
Inductive date_text : list Z -> Z * Z * Z -> Prop :=
| DateText Y M D y m d : written 4 y Y -> written 2 m M -> written 2 d D ->
    date_text (Y ++ [45] ++ M ++ [45] ++ D) (y, m, d).
(** HH[:MM[:SS[.fff[fff]]]]; how much of it is written *)
Inductive part := PH | PHM | PHMS | PMilli | PMicro.
Inductive clock_text : part -> list Z -> Z * Z * Z * Z -> Prop :=
| TextH H h : written 2 h H -> clock_text PH H (h, 0, 0, 0)
| TextHM H M h m : written 2 h H -> written 2 m M -> clock_text PHM (H ++ [58] ++ M) (h, m, 0, 0)
| TextHMS H M S h m s : written 2 h H -> written 2 m M -> written 2 s S ->
    clock_text PHMS (H ++ [58] ++ M ++ [58] ++ S) (h, m, s, 0)
| TextMilli H M S F h m s f : written 2 h H -> written 2 m M -> written 2 s S -> written 3 f F ->
    clock_text PMilli (H ++ [58] ++ M ++ [58] ++ S ++ [46] ++ F) (h, m, s, f * 1000)
| TextMicro H M S F h m s f : written 2 h H -> written 2 m M -> written 2 s S -> written 6 f F ->
    clock_text PMicro (H ++ [58] ++ M ++ [58] ++ S ++ [46] ++ F) (h, m, s, f).
(** microseconds of h:m:s.u *)
Definition span_us (c : Z * Z * Z * Z) : Z := let '(h, m, s, u) := c in ((h * 60 + m) * 60 + s) * 1000000 + u.
(** nothing, or a sign and HH:MM[:SS[.ffffff]]; the offset in microseconds *)
Inductive offset_text : list Z -> option Z -> Prop :=
| NoOffset : offset_text [] None
| PlusOffset p s c : p = PHM \/ p = PHMS \/ p = PMicro -> clock_text p s c -> offset_text (43 :: s) (Some (span_us c))
| MinusOffset p s c : p = PHM \/ p = PHMS \/ p = PMicro -> clock_text p s c -> offset_text (45 :: s) (Some (- span_us c)).

(** what there is *)
Definition real_date (f : Z * Z * Z) : Prop := exists n, in_range n /\ s_date n = f.
Definition real_clock (c : Z * Z * Z * Z) : Prop :=
  let '(h, m, s, u) := c in 0 <= h < 24 /\ 0 <= m < 60 /\ 0 <= s < 60 /\ 0 <= u < 1000000.
Definition real_offset (o : option Z) : Prop := match o with None => True | Some x => - us_per_day < x < us_per_day end.
(** a zone stands for an offset *)
Definition zone_is (z : option td) (o : option Z) : Prop :=
  match z, o with None, None => True | Some t, Some x => stands_for t x | _, _ => False end.
(** how much isoformat writes, and the time that is left *)
Definition part_of (spec : timespec) (u : Z) : option part :=
  match spec with
  | Auto => Some (if u =? 0 then PHMS else PMicro)
  | Hours => Some PH | Minutes => Some PHM | Seconds => Some PHMS | Milliseconds => Some PMilli | Microseconds => Some PMicro
  | OtherSpec => None
  end.
Definition cut (p : part) (c : Z * Z * Z * Z) : Z * Z * Z * Z :=
  let '(h, m, s, u) := c in
  match p with PH => (h, 0, 0, 0) | PHM => (h, m, 0, 0) | PHMS => (h, m, s, 0) | PMilli => (h, m, s, u / 1000 * 1000) | PMicro => c end.
(** the shortest form that loses nothing, at least minutes *)
Definition offset_part (x : Z) : part :=
  let a := Z.abs x in if a mod 60000000 =? 0 then PHM else if a mod 1000000 =? 0 then PHMS else PMicro.
