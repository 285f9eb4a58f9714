From Coq Require Import ZArith List Bool.
From Verif Require Import Py PySeq_Spec Random_Model.
Import ListNotations.
Open Scope Z_scope.
(** random() is in [0, 1), _randbelow(cap) in [0, cap) *)
Definition in_range (c : call) (a : answer) : Prop :=
  match c, a with
  | Random, AFloat n m => 0 < m /\ 0 <= n < m
  | Below cap, AInt z => 0 <= z < cap
  | _, _ => False
  end.
(** What random.Random.randrange may return: an element of range(start, stop, step), or of
    range(start) when stop is None (then step must be 1); it raises when there is none. *)
Definition randrange_values (start : Z) (stop : option Z) (step : Z) : list Z :=
  match stop with
  | None => if step =? 1 then py_range 0 start 1 else []
  | Some stop => if step =? 0 then [] else py_range start stop step
  end.
