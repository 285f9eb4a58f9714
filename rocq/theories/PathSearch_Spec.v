From Coq Require Import ZArith List Bool.
From Verif Require Import Py PathSearch_Model.
Import ListNotations.
Open Scope Z_scope.

Definition meets (c : cons) (s : Z) : Prop :=
  (forall l, lo c = Some l -> l <= s) /\ (forall h, hi c = Some h -> s < h).
(** The solver decides whether the scores a path admits include one under constraints. *)
Definition decides (sat : cons -> bool) (scores : Z -> Prop) : Prop :=
  forall c, sat c = true <-> exists s, scores s /\ meets c s.
(** The least score that is not negative *)
Definition least (scores : Z -> Prop) (m : Z) : Prop :=
  0 <= m /\ scores m /\ forall s, scores s -> 0 <= s -> m <= s.
Definition best_of (scores : Z -> Prop) (b : option Z) : Prop :=
  match b with Some m => least scores m | None => forall s, scores s -> s < 0 end.
