(** Model of crosshair/libimpl/randomlib.py: symbolic random number generators and the
    contracts given to the methods of random.Random. *)
From Coq Require Import ZArith List Bool.
From Verif Require Import Py.
Import ListNotations.
Open Scope Z_scope.

(** What has been drawn.  A float in [0, 1) is num/den. *)
Inductive drawn := DInt (z : Z) | DFloat (num den : Z).
(** A call of random() or _randbelow(cap) (getrandbits(k) is the latter with 2**k, 74-75) *)
Inductive call := Random | Below (cap : Z).
(** What it gives back: a float num/den, or an int *)
Inductive answer := AFloat (num den : Z) | AInt (z : Z).

Section R.
(** abs(hash(f)) *)
Variable abs_hash : Z -> Z -> Z.
(** 46-57 random; 59-72 _randbelow, from the value at the current position *)
Definition interpret (c : call) (d : drawn) : answer :=
  match c, d with
  | Random, DInt z => if negb (z =? 0) then AFloat 1 (Z.abs z) else AFloat 0 1
  | Random, DFloat n m => AFloat n m
  | Below cap, DFloat n m => AInt (abs_hash n m mod cap)
  | Below _, DInt z => AInt z
  end.
(** The list of future values is shared by all copies (27-39); each has its own position. *)
Record state := mkS { future_values : list drawn; positions : list nat }.
(** One call by generator [g]; [fresh] is what _intgen / _floatgen would draw. *)
Definition step_call (s : state) (g : nat) (c : call) (fresh : drawn) : res answer * state :=
  match nth_error (positions s) g with
  | None => (Err TypeError, s)
  | Some idx =>
      let fv := if (length (future_values s) <=? idx)%nat then future_values s ++ [fresh] else future_values s in
      match nth_error fv idx with
      | None => (Err IndexError, mkS fv (positions s))
      | Some d => (Ok (interpret c d), mkS fv (firstn g (positions s) ++ S idx :: skipn (S g) (positions s)))
      end
  end.
(** 27-39 __copy__ / __ch_deepcopy__ *)
Definition step_copy (s : state) (g : nat) : state :=
  match nth_error (positions s) g with
  | None => s
  | Some idx => mkS (future_values s) (positions s ++ [idx])
  end.
Inductive op := Call (g : nat) (c : call) (fresh : drawn) | Copy (g : nat).
(** The answers, each with the position it was drawn at and the call *)
Fixpoint run (s : state) (os : list op) : list (nat * call * res answer) * state :=
  match os with
  | [] => ([], s)
  | Copy g :: os => run (step_copy s g) os
  | Call g c fresh :: os =>
      let '(r, s') := step_call s g c fresh in
      let '(rs, s'') := run s' os in
      ((nth g (positions s) O, c, r) :: rs, s'')
  end.
(** 95-98: the generator made for an argument *)
Definition start : state := mkS [] [O].
(** 78-92 genint, genfloat: the constraints on a fresh value *)
Definition constrained (c : call) (d : drawn) : Prop :=
  match c, d with
  | Below cap, DInt z => 0 <= z < cap
  | Random, DFloat n m => 0 < m /\ 0 <= n < m
  | _, _ => False
  end.
End R.

(** The contracts.  101-109 random; 110-122 randint *)
Definition randint_pre (a b : Z) : bool := a <=? b.
Definition randint_post (r a b : Z) : bool := (a <=? r) && (r <=? b).
(** 123-134 randrange *)
Definition randrange_pre (start : Z) (stop : option Z) (step : Z) : bool :=
  match stop with
  | None => (step =? 1) && (1 <=? start)
  | Some stop => negb (start =? stop) && negb (step =? 0) && Bool.eqb (0 <? stop - start) (0 <? step)
  end.
(** [%] with a step of zero would raise; the precondition excludes it *)
Definition randrange_post (r start : Z) (stop : option Z) (step : Z) : bool :=
  (match stop with None => (0 <=? r) && (r <? start) | Some stop => (start <=? r) && (r <? stop) end)
  && ((step =? 1) || ((r - start) mod step =? 0)).
(** 170-178 getrandbits *)
Definition getrandbits_pre (k : Z) : bool := 0 <=? k.
Definition getrandbits_post (r k : Z) : bool := (0 <=? r) && (r <? 2 ^ k).
