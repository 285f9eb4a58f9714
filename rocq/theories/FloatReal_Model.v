(** Model of the symbolic floats represented as real numbers
    (crosshair/libimpl/builtinslib.py 516-538, 677-683, 798-825, 900-976, 1668-1757). *)
From Coq Require Import QArith Qround ZArith Bool List.
From Verif Require Import Py.
Import ListNotations.
Open Scope Z_scope.

(** A float of Python without its rounding: a number, an infinity or not-a-number.  The sign of
    zero is not represented: a real has none. *)
Inductive ext := Fin (q : Q) | Inf (neg : bool) | NaN.

(** solver operations: ToInt is the floor, IsInt asks whether a real is an integer *)
Definition to_int (q : Q) : Z := Qfloor q.
Definition is_int (q : Q) : bool := Qeq_bool (inject_Z (to_int q)) q.

(** 1683-1686 __int__, 1725-1728 __trunc__ *)
Definition m_int (v : Q) : Z := if Qle_bool 0 v then to_int v else - to_int (- v)%Q.
(** 1715-1717 __floor__ *)
Definition m_floor (v : Q) : Z := to_int v.
(** 1719-1722 __ceil__ *)
Definition m_ceil (v : Q) : Z :=
  let floor := to_int v in if Qeq_bool v (inject_Z floor) then floor else floor + 1.
(** 1694-1705 __round__ without digits *)
Definition m_round (v : Q) : Z :=
  let floor := to_int v in
  let nearest := to_int (v + (1 # 2))%Q in
  if negb (Qeq_bool v (inject_Z floor + (1 # 2))%Q) then nearest
  else if floor mod 2 =? 0 then floor else floor + 1.
(** 1689-1693 __round__ with digits; 10 ** n is a power of ten, below 1 for negative n *)
Definition power10 (n : Z) : Q := Qpower 10 n.
Definition m_round_to (v : Q) (n : Z) : Q := (inject_Z (m_round (v * power10 n)) / power10 n)%Q.
(** 1755-1757 is_integer *)
Definition m_is_integer (v : Q) : bool := is_int v.
(** 1730-1753 as_integer_ratio: the pairs the solver may choose, and the later check against
    the pair [py] that CPython computes for the realized number *)
Definition m_ratio_ok (v : Q) (py : Z * Z) (p : Z * Z) : bool :=
  let '(n, d) := p in
  (0 <? d) && Qeq_bool (inject_Z n) (inject_Z d * v)%Q && (fst py =? n) && (snd py =? d).

(** 900-955 _float_divmod.  The quotient and remainder of two numbers are whatever the solver
    finds: [divmod_constraints] is what it is told (944-954). *)
Definition divmod_constraints (a b : Q) (m : Z) (r : Q) : bool :=
  Qeq_bool (b * inject_Z m + r) a &&
  (if negb (Qle_bool b 0) then Qle_bool 0 r && negb (Qle_bool b r)
   else Qle_bool r 0 && negb (Qle_bool r b)).
Inductive dm := Raise (e : exc) | Pair (d m : ext) | Solve (a b : Q).
Definition m_divmod (a b : ext) : dm :=
  let b_zero := match b with Fin y => Qeq_bool y 0 | _ => false end in
  if b_zero then Raise ZeroDivisionError                                    (* 909-916 *)
  else match a with
  | Inf _ | NaN => Pair NaN NaN                                             (* 918-919 *)
  | Fin x =>
      match b with
      | NaN => Pair NaN NaN                                                 (* 927-928 *)
      | Inf negb_ =>
          let positive_a := Qle_bool 0 x in
          let positive_b := negb negb_ in
          if xorb positive_a positive_b then
            if Qeq_bool x 0 then Pair (Fin 0) (Fin 0)
            else Pair (Fin (-1)) (Inf negb_)
          else Pair (Fin 0) (Fin x)                                         (* 929-938 *)
      | Fin y => Solve x y
      end
  end.
(** the possible results of divmod, // and % (957-976) *)
Definition dm_gives (r : dm) (p : res (ext * ext)) : Prop :=
  match r with
  | Raise e => p = Err e
  | Pair d m => p = Ok (d, m)
  | Solve a b => exists m x, divmod_constraints a b m x = true /\ p = Ok (Fin (inject_Z m), Fin x)
  end.

(** 525-538 get_finite_comparable: a number meets an infinity or not-a-number as its sign *)
Definition comparable (a : Q) : Q :=
  if negb (Qle_bool a 0) then 1%Q else if negb (Qle_bool 0 a) then (-1)%Q else 0%Q.
Section nonfinite.
(** the operation of CPython on two concrete floats *)
Context {R : Type} (op : ext -> ext -> R).
(** 798-806 *)
Definition m_op_left (a : Q) (b : ext) : R := op (Fin (comparable a)) b.
Definition m_op_right (a : ext) (b : Q) : R := op a (Fin (comparable b)).
End nonfinite.
