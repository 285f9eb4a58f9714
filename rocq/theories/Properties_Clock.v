(* C111: the clocks of the time module. *)
From Coq Require Import ZArith QArith List Bool Lia Lqa.
From Verif Require Import Clock_Model Clock_Spec Clock_Proofs.
Import ListNotations.
Open Scope Q_scope.

(** The histories of clock calls that are explored are exactly those of real clocks (before the
    year 100000). *)
Theorem clock_histories : forall l, kept start l = true <-> real l.
Proof. exact kept_real. Qed.
Example clock_kept : kept start [ProcessTime (1 # 2); Sleep (3 # 2); MonotonicNs 1600000000; Time 5; Monotonic (8 # 5); Sleep 2; Monotonic 4] = true.
Proof. reflexivity. Qed.
Example clock_dropped : kept start [Monotonic 1; Sleep 2; MonotonicNs 2999999999] = false.
Proof. reflexivity. Qed.

(** C111.  The full claim: on every path that is explored the monotonic clock never goes back.
    Proved if no sleep is negative (as with CPython, where sleep raises ValueError then). *)
Theorem monotonic_partial : forall l pre e mid f post v w,
  kept start l = true -> no_negative_sleep l ->
  l = pre ++ e :: mid ++ f :: post -> steady e = Some v -> steady f = Some w -> v <= w.
Proof.
  intros l pre e mid f post v w K N E A B. apply kept_real in K. destruct K as (K & _).
  specialize (K _ _ _ _ _ _ _ E A B). assert (0 <= slept mid); [|lra].
  apply slept_nonneg. intros d I. apply N. rewrite E. apply in_or_app. right. right. apply in_or_app. now left.
Qed.
Theorem process_time_never_back : forall l pre e mid f post v w,
  kept start l = true -> l = pre ++ e :: mid ++ f :: post -> cpu e = Some v -> cpu f = Some w -> v <= w.
Proof. intros l pre e mid f post v w K. apply kept_real in K. destruct K as (_ & K & _). apply K. Qed.
(** A sleep takes at least the time given. *)
Theorem sleep_takes_time : forall l pre e d f post v w,
  kept start l = true -> l = pre ++ e :: Sleep d :: f :: post -> steady e = Some v -> steady f = Some w -> v + d <= w.
Proof.
  intros l pre e d f post v w K E A B. apply kept_real in K. destruct K as (K & _).
  specialize (K pre e [Sleep d] f post v w E A B). cbn in K. lra.
Qed.
Example sleep_example : kept start [Monotonic 1; Sleep 2; Monotonic 3] = true /\ no_negative_sleep [Monotonic 1; Sleep 2; Monotonic 3].
Proof. split; [reflexivity|]. intros d [E|[E|[E|[]]]]; try discriminate. injection E as <-. lra. Qed.

(** time.sleep(-5) is accepted, and then the monotonic clock may go back. *)
Theorem negative_sleep_refuted : exists v w d, kept start [Monotonic v; Sleep d; Monotonic w] = true /\ w < v.
Proof. exists 9, 4, (-5 # 1). split; [reflexivity|lra]. Qed.

Print Assumptions clock_histories.
Print Assumptions monotonic_partial.
Print Assumptions process_time_never_back.
Print Assumptions sleep_takes_time.
Print Assumptions negative_sleep_refuted.
