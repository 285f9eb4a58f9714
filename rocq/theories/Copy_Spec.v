(** What a copy of an object graph is. *)
From Coq Require Import List Bool Arith ZArith.
From Verif Require Import Copy_Model.
Import ListNotations.

(** the object at the end of an access path *)
Fixpoint walk (h : heap) (r : nat) (p : list nat) : option nat :=
  match p with
  | [] => Some r
  | i :: p => match nth_error h r with
              | Some (_, cs) => match nth_error cs i with Some c => walk h c p | None => None end
              | None => None
              end
  end.
Definition reach (h : heap) (a b : nat) : Prop := exists p, walk h a p = Some b.
Definition leaf (k : kind) : bool := match k with KAtom _ | KStuck _ | KSAtom _ => true | _ => false end.
Definition well_formed (h : heap) : Prop :=
  forall o k cs, nth_error h o = Some (k, cs) ->
  (forall c, In c cs -> c < length h) /\ (leaf k = true -> cs = []).

(** what the copy of an object is *)
Definition becomes (md : mode) (k : kind) : kind :=
  match md, k with
  | Realize, KSAtom v => KAtom v
  | Realize, KSLst => KLst
  | Realize, KSDct => KDct
  | _, _ => k
  end.
(** The same paths lead somewhere, to objects of the same kind with as many references. *)
Definition same_shape (md : mode) (h : heap) (r : nat) (h' : heap) (r' : nat) : Prop :=
  forall p, match walk h r p, walk h' r' p with
            | Some o, Some c =>
                exists k cs cs', nth_error h o = Some (k, cs) /\ nth_error h' c = Some (becomes md k, cs') /\ length cs' = length cs
            | None, None => True
            | _, _ => False
            end.
(** Two paths lead to one object exactly if they do in the original. *)
Definition same_sharing (h : heap) (r : nat) (h' : heap) (r' : nat) : Prop :=
  forall p q, walk h r p <> None -> walk h r q <> None ->
  (walk h r p = walk h r q <-> walk h' r' p = walk h' r' q).
(** objects that never change, and those that cannot be copied *)
Definition fixed (k : kind) : bool := match k with KAtom _ | KStuck _ | KTup => true | _ => false end.
(** What the copy has in common with the original never changes. *)
Definition apart (h : heap) (h' : heap) (r' : nat) : Prop :=
  forall p c, walk h' r' p = Some c -> c < length h ->
  exists k cs, nth_error h' c = Some (k, cs) /\ fixed k = true.
Definition unchanged (h h' : heap) : Prop := forall o, o < length h -> nth_error h' o = nth_error h o.
(** whatever happens to the original: only objects that were there and can change do *)
Definition original_changed (h h' h'' : heap) : Prop :=
  forall c k cs, nth_error h' c = Some (k, cs) -> length h <= c \/ fixed k = true -> nth_error h'' c = Some (k, cs).

(** references that are copied before the object can be *)
Definition needed (md : mode) (k : kind) (cs : list nat) : list nat :=
  match k with
  | KInst _ n _ => firstn n cs
  | KSLst | KSDct => match md with Realize => cs | _ => [] end
  | _ => []
  end.
Definition needed_or_tuple (md : mode) (k : kind) (cs : list nat) : list nat :=
  match k with KTup => cs | _ => needed md k cs end.
(** an object is not among what is needed to make it *)
Definition makeable (md : mode) (h : heap) : Prop :=
  forall o k cs a, nth_error h o = Some (k, cs) -> In a (needed md k cs) -> ~ reach h a o.
(** tuples and arguments are there before what is made of them *)
Definition grounded (md : mode) (h : heap) : Prop :=
  exists rank : nat -> nat, forall o k cs a, nth_error h o = Some (k, cs) -> In a (needed_or_tuple md k cs) -> rank a < rank o.
