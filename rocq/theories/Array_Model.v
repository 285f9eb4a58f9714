(* Model of crosshair/libimpl/arraylib.py: arrays of integers. *)
From Coq Require Import String.
From Coq Require Import ZArith List Bool.
From Verif Require Import Py PySeq_Spec Seq_Model SeqCmp_Model.
Import ListNotations.
Open Scope Z_scope.

(** the type codes, upper case ones with U *)
Inductive code := CodeUL | CodeUB | Codel | Codeb | CodeUQ | Codeq | CodeUI | Codei | CodeUH | Codeh.
(** 15-28 INT_TYPE_BOUNDS, in its order *)
Definition int_type_bounds : list (code * (Z * Z)) :=
  [(CodeUL, (0, 2 ^ 32)); (CodeUB, (0, 2 ^ 8)); (Codel, (- 2 ^ 31, 2 ^ 31)); (Codeb, (- 2 ^ 7, 2 ^ 7));
   (CodeUQ, (0, 2 ^ 64)); (Codeq, (- 2 ^ 63, 2 ^ 63)); (CodeUI, (0, 2 ^ 16)); (Codei, (- 2 ^ 15, 2 ^ 15));
   (CodeUH, (0, 2 ^ 16)); (Codeh, (- 2 ^ 15, 2 ^ 15))].
Definition code_eqb (c d : code) : bool :=
  match c, d with
  | CodeUL, CodeUL | CodeUB, CodeUB | Codel, Codel | Codeb, Codeb | CodeUQ, CodeUQ | Codeq, Codeq
  | CodeUI, CodeUI | Codei, Codei | CodeUH, CodeUH | Codeh, Codeh => true
  | _, _ => false
  end.
Definition bounds (c : code) : Z * Z :=
  match find (fun e => code_eqb c (fst e)) int_type_bounds with Some (_, r) => r | None => (0, 0) end.

(** 33-40 pick_code; [skip n] is the answer of the n-th fork *)
Fixpoint pick_code_from (skip : nat -> bool) (n : nat) (l : list (code * (Z * Z))) : option (code * (Z * Z)) :=
  match l with
  | [] => None
  | [e] => Some e
  | e :: r => if skip n then pick_code_from skip (S n) r else Some e
  end.
Definition pick_code (skip : nat -> bool) : option (code * (Z * Z)) := pick_code_from skip 0 int_type_bounds.
(** 43-51 make_array: the arrays that the constraints admit *)
Definition make_array (skip : nat -> bool) (c : code) (items : list Z) : Prop :=
  exists minval maxval, pick_code skip = Some (c, (minval, maxval)) /\
    Forall (fun x => minval <= x) items /\ Forall (fun x => x < maxval) items.

(** 54-57 check_int *)
Definition check_int (item minval maxval : Z) : res Z :=
  if (minval <=? item) && (item <? maxval) then Ok item else Err OverflowError.
(** 60-66 _array *)
Fixpoint check_all (lo hi : Z) (items : list Z) : res (list Z) :=
  match items with
  | [] => Ok []
  | x :: r => bind (check_int x lo hi) (fun x => bind (check_all lo hi r) (fun r => Ok (x :: r)))
  end.
Definition new_array (c : code) (items : list Z) : res (pseq Z) :=
  let '(lo, hi) := bounds c in bind (check_all lo hi items) (fun l => Ok (PRaw false l)).

(** 109-113 append; the other operations are those of ShellMutableSequence (138-142, and
    693-822 of simplestructs.py, in Seq_Model) *)
Definition step (c : code) (s : pseq Z) (o : sop Z) : sout Z * pseq Z :=
  match o with
  | OAppend x =>
      let '(lo, hi) := bounds c in
      match check_int x lo hi with
      | Ok _ => m_step s o
      | Err e => (ORaise e, s)
      end
  | _ => m_step s o
  end.
Fixpoint run (c : code) (s : pseq Z) (ops : list (sop Z)) : list (sout Z) * pseq Z :=
  match ops with
  | [] => ([], s)
  | o :: ops => let '(r, s) := step c s o in let '(rs, s) := run c s ops in (r :: rs, s)
  end.
(** 123-124 extend, 86-91 _iter_checker: the superclass gets a generator.  What comes of it
    when no value is out of bounds: *)
Definition extend (s : pseq Z) (items : list Z) : extended := m_extend_any s (RIter items).
