(* What clocks do, by any two calls of a history. *)
From Coq Require Import ZArith QArith List Bool.
From Verif Require Import Clock_Model.
Import ListNotations.
Open Scope Q_scope.

Definition billionth : Q := 1 / (1000000000 # 1).
(** what the two clocks read, in seconds *)
Definition steady (e : event) : option Q :=
  match e with Monotonic v => Some v | MonotonicNs n => Some (inject_Z n * billionth) | _ => None end.
Definition cpu (e : event) : option Q :=
  match e with ProcessTime v => Some v | ProcessTimeNs n => Some (inject_Z n * billionth) | _ => None end.
Fixpoint slept (l : list event) : Q :=
  match l with [] => 0 | Sleep d :: r => d + slept r | _ :: r => slept r end.
Definition years (n : Z) : Q := inject_Z (n * 365 * 86400).

(** Real clocks: a reading of the steady clock is no earlier than an earlier one by less than
    what was slept in between; its first reading is not less than what was slept before;
    process time never decreases; wall clock time is positive; nothing is later than the year
    100000. *)
Definition real (l : list event) : Prop :=
  (forall pre e mid f post v w, l = pre ++ e :: mid ++ f :: post -> steady e = Some v -> steady f = Some w ->
     v + slept mid <= w) /\
  (forall pre e mid f post v w, l = pre ++ e :: mid ++ f :: post -> cpu e = Some v -> cpu f = Some w -> v <= w) /\
  (forall pre e post v, l = pre ++ e :: post -> steady e = Some v -> slept pre <= v /\ v < years 100000) /\
  (forall pre e post v, l = pre ++ e :: post -> cpu e = Some v -> 0 <= v /\ v < years 100000) /\
  (forall v, In (Time v) l -> 0 < v) /\
  (forall n, In (TimeNs n) l -> (0 < n)%Z).
Definition no_negative_sleep (l : list event) : Prop := forall d, In (Sleep d) l -> 0 <= d.
