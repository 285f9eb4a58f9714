(* The elements in Python: they all exist from the beginning. *)
From Coq Require Import ZArith List Bool Arith.
From Verif Require Import Heap_Model.
Import ListNotations.

Section Python.
  Variable fresh : ref -> Z.

  (** * Rows: a row has an object for every reference; a checkpoint copies the last row *)
  Record rows := Rows { count : nat; at_row : nat -> ref -> Z }.
  Definition start : rows := Rows 1 (fun _ => fresh).
  Definition the_row (m : rows) (k : snapshot) : nat := match k with Some k => k | None => count m - 1 end.
  Definition object := (nat * ref)%type.
  Definition same_object (a b : object) : bool := Nat.eqb (fst a) (fst b) && Nat.eqb (snd a) (snd b).
  Definition put (m : rows) (o : object) (c : Z) : rows :=
    Rows (count m) (fun k r => if same_object (k, r) o then c else at_row m k r).
  Definition copy_row (m : rows) : rows :=
    Rows (S (count m)) (fun k r => if Nat.eqb k (count m) then at_row m (count m - 1) r else at_row m k r).
  Fixpoint eager (p : prog) (m : rows) (env : list object) : Z :=
    match p with
    | Done z => z
    | Find k r p => eager p m (env ++ [(the_row m k, r)])
    | Read n p => let '(k, r) := nth n env (0, 0) in eager (p (at_row m k r)) m env
    | Write n c p => eager p (put m (nth n env (0, 0)) c) env
    | Same a b p => eager (p (same_object (nth a env (0, 0)) (nth b env (0, 0)))) m env
    | Checkpoint p => eager p (copy_row m) env
    end.

  (** * Containers: a deep copy has copies of the elements, one for each element; an object is the
      number of the copy it belongs to and its reference *)
  Definition pycontainer := (nat * list ref)%type.
  Fixpoint pyrun (p : cprog) (copies : nat) (m : nat -> ref -> Z) (cs : list pycontainer) (env : list object) : Z :=
    match p with
    | CDone z => z
    | CGet c i p => let '(k, l) := nth c cs (0, []) in pyrun p copies m cs (env ++ [(k, nth i l 0)])
    | CCopy c p =>
        let '(k, l) := nth c cs (0, []) in
        pyrun p (S copies) (fun k' r => if Nat.eqb k' copies then m k r else m k' r) (cs ++ [(copies, l)]) env
    | CRead n p => let '(k, r) := nth n env (0, 0) in pyrun (p (m k r)) copies m cs env
    | CWrite n c p =>
        let '(k, r) := nth n env (0, 0) in
        pyrun p copies (fun k' r' => if Nat.eqb k' k && Nat.eqb r' r then c else m k' r') cs env
    end.
  (** the call: the argument as it was, and what the function gets *)
  Definition pycall (p : cprog) (argument : list ref) : Z :=
    pyrun p 2 (fun _ => fresh) [(0, argument); (1, argument)] [].
End Python.
