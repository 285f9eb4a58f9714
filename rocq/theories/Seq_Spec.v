(** What the lazy sequences stand for, and the reference behaviour of a list. *)
From Coq Require Import ZArith List Bool.
From Verif Require Import Py Range_Spec PySeq_Spec Seq_Model.
Import ListNotations.
Open Scope Z_scope.

Section Spec.
  Context {A : Type}.

  (** The items a sequence stands for. *)
  Fixpoint contents (s : pseq A) : list A :=
    match s with
    | PRaw _ l => l
    | PCat a b => contents a ++ contents b
    | PView q start stop => firstn (Z.to_nat (stop - start)) (skipn (Z.to_nat start) (contents q))
    end.

  (** Views lie within the sequence they view. *)
  Fixpoint wf (s : pseq A) : Prop :=
    match s with
    | PRaw _ _ => True
    | PCat a b => wf a /\ wf b
    | PView q start stop =>
        wf q /\ 0 <= start <= stop /\ (stop <= Z.of_nat (length (contents q)) \/ start = stop)
    end.

  (** [r] behaves as the list result [l]: same exception, or same items. *)
  Definition refines (r : res (pseq A)) (l : res (list A)) : Prop :=
    match l with
    | Err e => r = Err e
    | Ok l => exists s, r = Ok s /\ wf s /\ contents s = l
    end.

  (** The same operations on a Python list. *)
  Definition lupd (s : list A) (r : res (list A)) : sout A * list A :=
    match r with Ok s' => (ONone, s') | Err e => (ORaise e, s) end.
  Definition l_step (l : list A) (o : sop A) : sout A * list A :=
    match o with
    | OGet i => (obs OItem (py_getitem l i), l)
    | OGetSlice sl => (obs OItems (py_slice l sl), l)
    | OLen => (OInt (Z.of_nat (length l)), l)
    | OIter => (OItems l, l)
    | OSet i x => lupd l (py_setitem l i x)
    | OSetSlice sl v => lupd l (py_setslice l sl (contents v))
    | ODel i => lupd l (py_delitem l i)
    | ODelSlice sl => lupd l (py_delslice l sl)
    | OInsert i x => (ONone, py_insert l i x)
    | OAppend x => (ONone, l ++ [x])
    | OExtend v => (ONone, l ++ contents v)
    | OPop i => match py_pop l i with Ok (x, l') => (OItem x, l') | Err e => (ORaise e, l) end
    | OReverse => (ONone, rev l)
    | OIMul n => (ONone, py_repeat l n)
    end.
  Fixpoint l_run (l : list A) (ops : list (sop A)) : list (sout A) * list A :=
    match ops with
    | [] => ([], l)
    | o :: ops => let '(r, l) := l_step l o in let '(rs, l) := l_run l ops in (r :: rs, l)
    end.

  Definition op_wf (o : sop A) : Prop :=
    match o with OSetSlice _ v | OExtend v => wf v | _ => True end.
End Spec.
