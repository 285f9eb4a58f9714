(* Model of crosshair/libimpl/timelib.py: the clocks of a path.

   A reading is a fresh value that must meet the contract registered for the clock (40-71);
   a path on which one does not is dropped (enforce.py; modelled in Enforce_Model).  The
   history of a path is the list of its clock calls with the values they return.  Floats are
   rationals: symbolic floats are reals, and no reading that meets the contracts is infinite
   or not a number. *)
From Coq Require Import ZArith QArith List Bool.
Import ListNotations.

Inductive event :=
| Time (v : Q) | TimeNs (n : Z)
| Monotonic (v : Q) | MonotonicNs (n : Z)
| ProcessTime (v : Q) | ProcessTimeNs (n : Z)
| Sleep (d : Q).

(** 12-17 EarliestPossibleTime *)
Record earliest := Earliest { monotonic : Q; process_time : Q }.
Definition start : earliest := Earliest 0 0.

(** 21 _UNREALISTICALLY_LARGE_TIME_FLOAT *)
Definition large : Q := inject_Z (60 * 60 * 24 * 365 * 100000).

Definition below (a b : Q) : bool := negb (Qle_bool b a).
(** 24-29 _gte_last *)
Definition gte_last_monotonic (s : earliest) (v : Q) : bool * earliest :=
  (Qle_bool (monotonic s) v && below v large, Earliest v (process_time s)).
Definition gte_last_process_time (s : earliest) (v : Q) : bool * earliest :=
  (Qle_bool (process_time s) v && below v large, Earliest (monotonic s) v).

(** 58, 69: / 1_000_000_000 *)
Definition seconds (n : Z) : Q := n # 1000000000.

(** One clock call: the contracts of 40-71, and 32-36 _sleep. *)
Definition step (s : earliest) (e : event) : bool * earliest :=
  match e with
  | Time v => (below 0 v, s)
  | TimeNs n => ((0 <? n)%Z, s)
  | Monotonic v => gte_last_monotonic s v
  | MonotonicNs n => gte_last_monotonic s (seconds n)
  | ProcessTime v => gte_last_process_time s v
  | ProcessTimeNs n => gte_last_process_time s (seconds n)
  | Sleep d => (true, Earliest (monotonic s + d) (process_time s))
  end.
(** Whether the path with this history is kept. *)
Fixpoint kept (s : earliest) (l : list event) : bool :=
  match l with
  | [] => true
  | e :: r => let '(ok, s) := step s e in ok && kept s r
  end.
