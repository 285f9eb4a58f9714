(** Model of symbolic-integer arithmetic, crosshair/libimpl/builtinslib.py.

    A symbolic int is followed along one path under one assignment of the solver
    variables, so it is modelled by its value: [space.smt_fork(c)] is the truth of
    [c], z3 expressions are evaluated with z3's meaning of the operators ([zdiv] and
    [zmod] are SMT-LIB's Euclidean division), [realize] is the identity. *)
From Coq Require Import ZArith List Bool.
From Verif Require Import Py.
Import ListNotations.
Open Scope Z_scope.

(** SMT-LIB integer division and remainder: remainder always in [0, |y|). *)
Definition zdiv (x y : Z) : Z := if 0 <? y then x / y else - (x / (- y)).
Definition zmod (x y : Z) : Z := x mod (Z.abs y).

(** apply_smt, floordiv: builtinslib.py 680-692. *)
Definition m_floordiv (x y : Z) : res Z :=
  if y =? 0 then Err ZeroDivisionError
  else if 0 <=? y then
    if 0 <=? x then Ok (zdiv x y)
    else Ok (- (zdiv (y - x - 1) y))
  else
    if 0 <=? x then Ok (- (zdiv (x - y - 1) (- y)))
    else Ok (zdiv (- x) (- y)).

(** apply_smt, mod: builtinslib.py 680-683, 693-697. *)
Definition m_mod (x y : Z) : res Z :=
  if y =? 0 then Err ZeroDivisionError
  else if (0 <=? y) || (zmod x y =? 0) then Ok (zmod x y)
  else Ok (zmod x y + y).

(** SymbolicNumberAble.__divmod__: builtinslib.py 1104-1105. *)
Definition m_divmod (x y : Z) : res (Z * Z) :=
  do q <- m_floordiv x y; do r <- m_mod x y; Ok (q, r).

(** lshift / rshift: builtinslib.py 852-861. *)
Definition m_lshift (a b : Z) : res Z :=
  if b <? 0 then Err ValueError else Ok (a * 2 ^ b).
Definition m_rshift (a b : Z) : res Z :=
  if b <? 0 then Err ValueError else m_floordiv a (2 ^ b).

(** and_: builtinslib.py 863-886, [a] the symbolic operand, [b] the other one
    (lines 865-867 swap them if needed).  The fall back realizes both and applies
    CPython's &, which is [Z.land]. *)
Definition m_and (a b : Z) : Z :=
  if b =? 0 then 0
  else
    let mask_mod := b + 1 in
    if (0 <? b) && (Z.land mask_mod b =? 0) then
      if 0 <=? a then zmod a mask_mod
      else b - zmod (- a - 1) mask_mod
    else Z.land a b.

(** SymbolicIntable.__invert__: builtinslib.py 1119-1120. *)
Definition m_invert (a : Z) : Z := - (a + 1).

(** SymbolicNumberAble.__abs__ / __neg__: builtinslib.py 1010-1014. *)
Definition m_abs (a : Z) : Z := if a <? 0 then - a else a.

(** SymbolicIntable.bit_count: builtinslib.py 1140-1151. *)
Fixpoint bit_count_loop (fuel : nat) (self count threshold halfway : Z) : res Z :=
  match fuel with
  | O => Err OutOfFuel
  | S f =>
      if halfway <=? self then
        do r <- m_mod self threshold;
        bit_count_loop f self (if halfway <=? r then count + 1 else count)
                       (threshold * 2) (halfway * 2)
      else Ok count
  end.
Definition m_bit_count (fuel : nat) (self : Z) : res Z :=
  bit_count_loop fuel (if self <? 0 then - self else self) 0 2 1.

(** SymbolicInt.__round__: builtinslib.py 1325-1345, for [ndigits] given. *)
Definition round_pos (var ndigits : Z) : Z :=
  let factor := 10 ^ (- ndigits) in
  let half := factor / 2 in
  if zmod (var + half) factor =? 0 then
    let floor := var - zmod var factor in
    if zmod (zdiv var factor) 2 =? 0 then floor else floor + factor
  else
    let var := var + half in
    var - zmod var factor.
Definition m_round (self : Z) (ndigits : option Z) : Z :=
  match ndigits with
  | None => self
  | Some nd =>
      if 0 <=? nd then self
      else if self <? 0 then - (round_pos (- self) nd)
      else round_pos self nd
  end.

(** SymbolicInt.bit_length: builtinslib.py 1347-1363. *)
Definition bit_length_small (val : Z) : Z :=
  if val =? 0 then 0 else if val <? 2 then 1 else if val <? 4 then 2
  else if val <? 8 then 3 else if val <? 16 then 4 else if val <? 32 then 5
  else if val <? 64 then 6 else if val <? 128 then 7 else 8.
Fixpoint m_bit_length (fuel : nat) (self : Z) : res Z :=
  match fuel with
  | O => Err OutOfFuel
  | S f =>
      let abs_self := if self <? 0 then - self else self in
      if 256 <=? abs_self then
        do q <- m_floordiv abs_self 256;
        do r <- m_bit_length f q;
        Ok (r + 8)
      else Ok (bit_length_small abs_self)
  end.

(** SymbolicInt.__repr__: builtinslib.py 1252-1268.  A string is its list of code
    points.  [codepoints] is kept in the order of the Python list before reverse. *)
Fixpoint repr_loop (fuel : nat) (self : Z) (codepoints : list Z) (cur_divisor : Z)
  : res (list Z) :=
  match fuel with
  | O => Err OutOfFuel
  | S f =>
      do leftover <- m_floordiv self cur_divisor;
      if leftover =? 0 then Ok (rev codepoints)
      else do d <- m_mod leftover 10;
           repr_loop f self (codepoints ++ [48 + d]) (cur_divisor * 10)
  end.
Definition repr_nonneg (fuel : nat) (self : Z) : res (list Z) :=
  if self <? 10 then Ok [48 + self]
  else do d <- m_mod self 10; repr_loop fuel self [48 + d] 10.
Definition m_repr (fuel : nat) (self : Z) : res (list Z) :=
  if self <? 0 then do r <- repr_nonneg fuel (- self); Ok (45 :: r)
  else repr_nonneg fuel self.

(** SymbolicInt._symbolic_repr: builtinslib.py 1270-1284. *)
Fixpoint srepr_loop (fuel : nat) (self : Z) (digits : list Z) (threshold : Z)
  : res (list Z) :=
  match fuel with
  | O => Err OutOfFuel
  | S f =>
      if threshold <=? self then
        do q <- m_floordiv self threshold; do d <- m_mod q 10;
        srepr_loop f self (digits ++ [48 + d]) (threshold * 10)
      else Ok digits
  end.
Definition m_symbolic_repr (fuel : nat) (self : Z) : res (list Z) :=
  let is_negative := self <? 0 in
  let self := if is_negative then - self else self in
  do d <- m_mod self 10;
  do digits <- srepr_loop fuel self [48 + d] 10;
  Ok (rev (if is_negative then digits ++ [45] else digits)).

(** What an operator on ints can give back: an int or a float (whose value does not
    matter here). *)
Inductive num := NInt (z : Z) | NFloat.

(** apply_smt, pow: builtinslib.py 698-705, with both operands ints; [z3pow] stands
    for z3.ToInt (x ** y). *)
Definition m_pow (z3pow : Z -> Z -> Z) (x y : Z) : res num :=
  if (x =? 0) && (y <? 0) then Err ZeroDivisionError
  else Ok (NInt (z3pow x y)).

(** The byteorder argument: "big", "little" or any other string. *)
Inductive order := Big | Little | OtherOrder.

(** SymbolicInt.to_bytes: builtinslib.py 1370-1404, argument checks on types left
    out.  For a negative [length], 256**length is a float strictly between 0 and 1
    (and [>>] on it a TypeError). *)
Definition to_bytes_digits (self length : Z) (o : order) : list Z :=
  let intarray := map (fun i => zmod (zdiv self (2 ^ (Z.of_nat i * 8))) 256)
                      (seq 0 (Z.to_nat length)) in
  match o with Big => rev intarray | _ => intarray end.
Definition m_to_bytes (self length : Z) (o : order) (signed : bool) : res (list Z) :=
  if signed then
    if length <? 0 then Err TypeError
    else
      let half := Z.shiftr (256 ^ length) 1 in
      if (self <? - half) || (half <=? self) then Err OverflowError
      else Ok (to_bytes_digits (if self <? 0 then 256 ^ length + self else self) length o)
  else if length <? 0 then
    if (self <? 0) || (1 <=? self) then Err OverflowError
    else Ok (to_bytes_digits self length o)
  else
    if (self <? 0) || (256 ^ length <=? self) then Err OverflowError
    else Ok (to_bytes_digits self length o).

(** _int_from_bytes: builtinslib.py 5159-5193, on a list of ints. *)
Definition m_from_bytes (b : list Z) (o : order) (signed : bool) : res Z :=
  match o with
  | OtherOrder => Err ValueError
  | _ =>
      let items := match o with Little => rev b | _ => b end in
      let val := fold_left (fun val byt => val * 256 + byt) items 0 in
      let n := Z.of_nat (length b) in
      Ok (if signed && negb (n =? 0) then
            let modulus := 256 ^ n in
            if modulus / 2 <=? val then val - modulus else val
          else val)
  end.

(** SymbolicBoundedInt: builtinslib.py 1410-1520.  The value followed, the bounds
    kept on the object, and the constraints the object adds to the path
    ([space.add]) as half-lines. *)
Inductive bound := AtLeast (z : Z) | AtMost (z : Z).
Record bint := mkB { b_val : Z; b_min : option Z; b_max : option Z; b_added : list bound }.

Definition opt_list {A} (o : option A) : list A := match o with Some a => [a] | None => [] end.

(** __init__, 1411-1425. *)
Definition bint_init (v : Z) (mn mx : option Z) : bint :=
  mkB v mn mx (map AtLeast (opt_list mn) ++ map AtMost (opt_list mx)).

(** _ch_intersect_bounds, 1473-1489. *)
Definition intersect_min (b : bint) (new_min : Z) : bint :=
  if match b_min b with None => true | Some m => m <? new_min end
  then mkB (b_val b) (Some new_min) (b_max b) (AtLeast new_min :: b_added b) else b.
Definition intersect_max (b : bint) (new_max : Z) : bint :=
  if match b_max b with None => true | Some m => new_max <? m end
  then mkB (b_val b) (b_min b) (Some new_max) (AtMost new_max :: b_added b) else b.

Definition opt_test (o : option Z) (f : Z -> bool) : bool :=
  match o with None => false | Some m => f m end.

(** __lt__ with an int, 1427-1445, the resulting SymbolicBool being then realized
    (which fires its decision trigger, 1176-1178). *)
Definition bint_lt (b : bint) (other : Z) : bool * bint :=
  if opt_test (b_min b) (fun m => other <? m) then (false, b)
  else if opt_test (b_max b) (fun m => m <? other) then (true, b)
  else let islt := b_val b <? other in
       (islt, if islt then intersect_max b (other - 1) else intersect_min b other).

(** __gt__ with an int, 1447-1465. *)
Definition bint_gt (b : bint) (other : Z) : bool * bint :=
  if opt_test (b_max b) (fun m => m <? other) then (false, b)
  else if opt_test (b_min b) (fun m => other <? m) then (true, b)
  else let isgt := other <? b_val b in
       (isgt, if isgt then intersect_min b (other + 1) else intersect_max b other).

(** _unary_op(ops.neg), 1493-1496. *)
Definition bint_neg (b : bint) : bint :=
  bint_init (- b_val b) (option_map Z.opp (b_max b)) (option_map Z.opp (b_min b)).

(** A history of comparisons and negations on one bounded int. *)
Inductive bop := OpLt (z : Z) | OpGt (z : Z) | OpNeg.
Fixpoint bint_run (b : bint) (l : list bop) : list bool * bint :=
  match l with
  | [] => ([], b)
  | OpLt z :: l => let '(r, b) := bint_lt b z in let '(rs, b) := bint_run b l in (r :: rs, b)
  | OpGt z :: l => let '(r, b) := bint_gt b z in let '(rs, b) := bint_run b l in (r :: rs, b)
  | OpNeg :: l => bint_run (bint_neg b) l
  end.
