(** A mask is a set of code points. *)
From Coq Require Import ZArith List Bool.
From Verif Require Import Py CharMask_Model.
Import ListNotations.
Open Scope Z_scope.

(** The code points a list of parts stands for *)
Definition holds (m : mask) (c : Z) : Prop :=
  exists p, In p m /\ match p with One x => c = x | Rng a b => a <= c < b end.
(** The class invariant (37-42): ranges are non-empty, within Unicode, in order and
    neither overlapping nor adjacent. *)
Definition first_of (p : part) : Z := match p with One x => x | Rng a _ => a end.
Definition end_of (p : part) : Z := match p with One x => x + 1 | Rng _ b => b end.
Fixpoint apart (m : mask) : Prop :=
  match m with p :: ((q :: _) as r) => end_of p < first_of q /\ apart r | _ => True end.
Definition valid (maxu : Z) (m : mask) : Prop :=
  Forall (fun p => 0 <= first_of p /\ first_of p < end_of p /\ end_of p <= maxu + 1) m /\ apart m.
(** One code point is written as a number. *)
Definition canonical (m : mask) : Prop :=
  Forall (fun p => match p with One _ => True | Rng a b => b <> a + 1 end) m.
(** An operation gives the mask of a set of code points. *)
Definition gives (maxu : Z) (r : res mask) (P : Z -> Prop) : Prop :=
  exists m, r = Ok m /\ valid maxu m /\ canonical m /\ forall c, holds m c <-> P c.
