(** What a choice of examples should achieve. *)
From Coq Require Import List Bool ZArith Permutation.
Import ListNotations.

Section Spec.
  Context {X K : Type}.
  Variable cov : X -> K -> Prop.      (* what an example covers *)

  (** Some example of [l] covers [o]. *)
  Definition covered (l : list X) (o : K) : Prop := exists x, In x l /\ cov x o.

  (** [n] is how many opcodes [x] covers that [l] does not. *)
  Definition news (l : list X) (x : X) (n : nat) : Prop :=
    exists os, NoDup os /\ length os = n /\ forall o, In o os <-> cov x o /\ ~ covered l o.

  (** [sel] is chosen from [l] one example after the other; each covers something new; no
      other example that is left covers more that is new, and the ones that cover as much
      are not [preferred]; everything is covered in the end. *)
  Definition greedy (preferred : X -> X -> Prop) (l sel : list X) : Prop :=
    exists rest, Permutation (sel ++ rest) l /\
      (forall o, covered sel o <-> covered l o) /\
      forall before x after, sel = before ++ x :: after ->
        exists n, news before x n /\ n <> 0 /\
          forall y m, In y (after ++ rest) -> news before y m ->
            m < n \/ m = n /\ ~ preferred y x.
End Spec.
