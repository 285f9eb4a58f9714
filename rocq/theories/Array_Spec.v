(* Arrays of the array module, on a platform where int has 32 and long 64 bits. *)
From Coq Require Import ZArith List Bool.
From Verif Require Import Py PySeq_Spec Seq_Model Seq_Spec Array_Model.
Import ListNotations.
Open Scope Z_scope.

Definition itemsize (c : code) : Z :=
  match c with
  | Codeb | CodeUB => 1 | Codeh | CodeUH => 2 | Codei | CodeUI => 4 | Codel | CodeUL | Codeq | CodeUQ => 8
  end.
Definition signed (c : code) : bool :=
  match c with Codeb | Codeh | Codei | Codel | Codeq => true | _ => false end.
(** the values that an item can have *)
Definition holds (c : code) (x : Z) : bool :=
  if signed c then (- 2 ^ (8 * itemsize c - 1) <=? x) && (x <? 2 ^ (8 * itemsize c - 1))
  else (0 <=? x) && (x <? 2 ^ (8 * itemsize c)).

(** The operations: as a list's, but values that do not fit raise OverflowError. *)
Definition array_step (c : code) (l : list Z) (o : sop Z) : sout Z * list Z :=
  match o with
  | OAppend x | OInsert _ x => if holds c x then l_step l o else (ORaise OverflowError, l)
  | OSet i x =>
      match py_setitem l i x with
      | Ok l2 => if holds c x then (ONone, l2) else (ORaise OverflowError, l)
      | Err e => (ORaise e, l)
      end
  | _ => l_step l o
  end.
Fixpoint array_run (c : code) (l : list Z) (ops : list (sop Z)) : list (sout Z) * list Z :=
  match ops with
  | [] => ([], l)
  | o :: ops => let '(r, l) := array_step c l o in let '(rs, l) := array_run c l ops in (r :: rs, l)
  end.
Definition array_new (c : code) (items : list Z) : res (list Z) :=
  if forallb (holds c) items then Ok items else Err OverflowError.

(** Slices are only assigned arrays of the same kind. *)
Definition same_kind (c : code) (o : sop Z) : Prop :=
  match o with OSetSlice _ v => wf v /\ Forall (fun x => holds c x = true) (contents v) | _ => op_wf o end.
Definition no_extend (o : sop Z) : Prop := match o with OExtend _ => False | _ => True end.
(** the values given to insert and item assignment can be held *)
Definition fitting (c : code) (o : sop Z) : Prop :=
  match o with OInsert _ x | OSet _ x => holds c x = true | _ => True end.
(** the kinds whose bounds are right *)
Definition small_or_longest (c : code) : Prop := itemsize c <= 2 \/ c = Codeq \/ c = CodeUQ.
