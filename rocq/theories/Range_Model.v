(** Model of SymbolicRange, crosshair/libimpl/builtinslib.py 2484-2642, by the values
    of start, stop and step on the path followed (see IntOps_Model for the reading). *)
From Coq Require Import ZArith List Bool.
From Verif Require Import Py IntOps_Model.
Import ListNotations.
Open Scope Z_scope.

Record srange := mkR { r_start : Z; r_stop : Z; r_step : Z }.

(** __init__, 2489-2511: one, two or three arguments. *)
Definition range_init (a : Z) (b c : option Z) : res srange :=
  match b with
  | None => Ok (mkR 0 a 1)
  | Some b =>
      match c with
      | None => Ok (mkR a b 1)
      | Some c => if c =? 0 then Err ValueError else Ok (mkR a b c)
      end
  end.

(** __len__, 2603-2613. [//] and [%] are the symbolic operators. *)
Definition range_len (r : srange) : res Z :=
  if negb (Bool.eqb (0 <? r_step r) (r_start r <? r_stop r)) then Ok 0
  else
    let width := m_abs (r_stop r - r_start r) in
    if r_step r =? 1 then Ok width
    else
      let step := m_abs (r_step r) in
      do q <- m_floordiv width step;
      do m <- m_mod width step;
      Ok (q + Z.min 1 m).

(** __bool__, 2600-2601. *)
Definition range_bool (r : srange) : res bool := do n <- range_len r; Ok (0 <? n).

(** __getitem__ with an int, 2545-2549. *)
Definition range_getitem (r : srange) (i : Z) : res Z :=
  do length <- range_len r;
  let i := i + (if i <? 0 then 1 else 0) * length in
  if (i <? 0) || (length <=? i) then Err IndexError
  else Ok (r_start r + r_step r * i).

(** __contains__ with an int, 2551-2558. *)
Definition range_contains (r : srange) (value : Z) : res bool :=
  do m <- m_mod (value - r_start r) (r_step r);
  if 0 <? r_step r
  then Ok ((r_start r <=? value) && (value <? r_stop r) && (m =? 0))
  else Ok ((r_stop r <? value) && (value <=? r_start r) && (m =? 0)).

(** count with an int, 2560-2563. *)
Definition range_count (r : srange) (value : Z) : res Z :=
  do b <- range_contains r value; Ok (if b then 1 else 0).

(** index with an int, 2565-2575. *)
Definition range_index (r : srange) (value : Z) : res Z :=
  do b <- range_contains r value;
  if b then m_floordiv (value - r_start r) (r_step r) else Err ValueError.

(** __iter__, 2577-2586, run to its end. *)
Fixpoint iter_loop (fuel : nat) (start stop step : Z) : res (list Z) :=
  match fuel with
  | O => Err OutOfFuel
  | S f =>
      if (if step <? 0 then stop <? start else start <? stop)
      then do rest <- iter_loop f (start + step) stop step; Ok (start :: rest)
      else Ok []
  end.
Definition range_iter (fuel : nat) (r : srange) : res (list Z) :=
  iter_loop fuel (r_start r) (r_stop r) (r_step r).

(** __eq__ with a range, 2588-2598. *)
Fixpoint zip_all_equal (a b : list Z) : bool :=
  match a, b with
  | x :: a, y :: b => if negb (x =? y) then false else zip_all_equal a b
  | _, _ => true
  end.
Definition range_eq (fuel : nat) (r o : srange) : res bool :=
  do a <- range_len r; do b <- range_len o;
  if negb (a =? b) then Ok false
  else do x <- range_iter fuel r; do y <- range_iter fuel o; Ok (zip_all_equal x y).

(** __reversed__, 2622-2642: the range it iterates over ([None]: iter(())). *)
Definition range_reversed (r : srange) : res (option srange) :=
  let '(mkR start stop step) := r in
  if step <? 1 then
    let width := start - stop in
    if width <=? 0 then Ok None
    else
      let revstep := - step in
      do q <- m_floordiv width revstep; do m <- m_mod width revstep;
      let ll := q + Z.min 1 m in
      let tail_space := width - (ll - 1) * revstep in
      do o <- range_init (stop + tail_space) (Some (start + tail_space)) (Some revstep);
      Ok (Some o)
  else
    let width := stop - start in
    if width <=? 0 then Ok None
    else
      do q <- m_floordiv width step; do m <- m_mod width step;
      let ll := q + Z.min 1 m in
      let tail_space := width - (ll - 1) * step in
      do o <- range_init (stop - tail_space) (Some (start - tail_space)) (Some (- step));
      Ok (Some o).
Definition range_reversed_list (fuel : nat) (r : srange) : res (list Z) :=
  do o <- range_reversed r;
  match o with None => Ok [] | Some r' => range_iter fuel r' end.
