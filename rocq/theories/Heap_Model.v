(* Model of crosshair/statespace.py 1120-1175 (current_snapshot, checkpoint, add_value_to_heaps,
   find_key_in_heap): where the elements of symbolic containers are kept that the solver has no
   sort for, and of the part of libimpl/builtinslib.py that uses it: 266-284 (SymbolicValue's
   snapshot and __deepcopy__), 463-475 (smt_to_ch_value), 2386-2456 (elements of a symbolic
   sequence), with core.py 1526-1530 (attempt_call: the arguments, the checkpoint, the copy).

   References are numbers: what the solver's references are under the assignment of the path, so
   that a fork on curref == ref goes the way of equality.  All elements have one type.  An
   element is an object with one changeable field; objects are numbered in the order in which
   they are made, [store] has their fields. *)
From Coq Require Import ZArith List Bool Arith.
Import ListNotations.

Definition ref := nat.
Definition loc := nat.
Definition entries := list (ref * loc).
Record space := Space { heaps : list entries; store : list Z }.
Definition field (s : space) (l : loc) : Z := nth l (store s) 0%Z.
(** 789 *)
Definition empty : space := Space [[]] [].
(** SnapshotRef: an index, None is -1 *)
Definition snapshot := option nat.
(** 1120-1121 *)
Definition current_snapshot (s : space) : snapshot := Some (length (heaps s) - 1).
(** self.heaps[snapshot] *)
Definition heap_at (s : space) (k : snapshot) : entries :=
  nth (match k with Some k => k | None => length (heaps s) - 1 end) (heaps s) [].
Fixpoint lookup (h : entries) (r : ref) : option loc :=
  match h with [] => None | (r', l) :: h => if Nat.eqb r' r then Some l else lookup h r end.

(** 1123-1126 checkpoint: deep copies of the last heap's values *)
Fixpoint copy_entries (h : entries) (st : list Z) : entries * list Z :=
  match h with
  | [] => ([], st)
  | (r, l) :: h => let '(h', st') := copy_entries h (st ++ [nth l st 0%Z]) in ((r, length st) :: h', st')
  end.
Definition checkpoint (s : space) : space :=
  let '(h, st) := copy_entries (heap_at s None) (store s) in Space (heaps s ++ [h]) st.

Section New.
  (** the field of the new object for a reference *)
  Variable fresh : ref -> Z.
  (** 1128-1132 add_value_to_heaps: [value] goes to the last heap, copies to the others *)
  Fixpoint add_entries (hs : list entries) (r : ref) (value next : loc) : list entries :=
    match hs with
    | [] => []
    | [h] => [h ++ [(r, value)]]
    | h :: hs => (h ++ [(r, next)]) :: add_entries hs r value (S next)
    end.
  Definition add_value_to_heaps (s : space) (r : ref) : loc * space :=
    let value := length (store s) in
    (value, Space (add_entries (heaps s) r value (S value)) (store s ++ fresh r :: repeat (fresh r) (length (heaps s) - 1))).
  (** 1134-1175 find_key_in_heap *)
  Definition find_key_in_heap (s : space) (r : ref) (k : snapshot) : loc * space :=
    match lookup (heap_at s k) r with
    | Some l => (l, s)
    | None => add_value_to_heaps s r
    end.
  Fixpoint set_nth (l : list Z) (n : nat) (c : Z) : list Z :=
    match l, n with [], _ => [] | _ :: r, O => c :: r | x :: r, S n => x :: set_nth r n c end.

  (** * Programs that use the heaps: objects are named by the order in which they were got *)
  Inductive prog :=
    | Done (z : Z)
    | Find (k : snapshot) (r : ref) (p : prog)
    | Read (n : nat) (p : Z -> prog)
    | Write (n : nat) (c : Z) (p : prog)
    | Same (m n : nat) (p : bool -> prog)          (** is *)
    | Checkpoint (p : prog).
  Fixpoint run (p : prog) (s : space) (env : list loc) : Z :=
    match p with
    | Done z => z
    | Find k r p => let '(l, s) := find_key_in_heap s r k in run p s (env ++ [l])
    | Read n p => run (p (field s (nth n env 0))) s env
    | Write n c p => run p (Space (heaps s) (set_nth (store s) (nth n env 0) c)) env
    | Same m n p => run (p (Nat.eqb (nth m env 0) (nth n env 0))) s env
    | Checkpoint p => run p (checkpoint s) env
    end.

  (** * Programs that use containers: builtinslib.py *)
  (** A symbolic sequence: the references of its elements and its snapshot *)
  Record container := Container { elements : list ref; c_snapshot : snapshot }.
  Inductive cprog :=
    | CDone (z : Z)
    | CGet (c i : nat) (p : cprog)                  (** c[i], which becomes the next object *)
    | CCopy (c : nat) (p : cprog)                   (** deepcopy(c), which becomes the next container *)
    | CRead (n : nat) (p : Z -> cprog)
    | CWrite (n : nat) (c : Z) (p : cprog).
  Definition no_container := Container [] None.
  Fixpoint crun (p : cprog) (s : space) (cs : list container) (env : list loc) : Z :=
    match p with
    | CDone z => z
    | CGet c i p =>
        let c := nth c cs no_container in
        let '(l, s) := find_key_in_heap s (nth i (elements c) 0) (c_snapshot c) in crun p s cs (env ++ [l])
    | CCopy c p => crun p s (cs ++ [Container (elements (nth c cs no_container)) (current_snapshot s)]) env
    | CRead n p => crun (p (field s (nth n env 0))) s cs env
    | CWrite n c p => crun p (Space (heaps s) (set_nth (store s) (nth n env 0) c)) cs env
    end.
  (** core.py 1526-1530: container 0 is the argument as it was ([__old__]), container 1 is the one
      that the function gets *)
  Definition attempt (p : cprog) (argument : list ref) : Z :=
    let original := Container argument None in
    let s := checkpoint empty in
    crun p s [original; Container argument (current_snapshot s)] [].
End New.
