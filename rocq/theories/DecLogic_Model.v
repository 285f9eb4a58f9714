(** Model of the logical operations of decimals: crosshair/libimpl/decimallib.py 3175-3258
    (_islogical, _fill_logical, logical_and, logical_invert, logical_or, logical_xor).  A decimal is
    its sign, its exponent (None: an infinity or NaN, whose exponent is a letter) and the digits of
    _int, the first one first.  The other operand has been converted to a decimal. *)
From Coq Require Import ZArith List Bool.
Import ListNotations.
Open Scope Z_scope.
Record decimal := Decimal { sign : Z; exponent : option Z; digits : list Z }.
(** A decimal, or what _raise_error_in_ctx does with InvalidOperation *)
Inductive outcome := Gives (d : decimal) | Invalid.

(** 3175-3188 *)
Fixpoint binary (l : list Z) : bool :=
  match l with [] => true | d :: l => if (d =? 0) || (d =? 1) then binary l else false end.
Definition is_logical (d : decimal) : bool :=
  if negb (sign d =? 0) then false
  else match exponent d with Some e => if negb (e =? 0) then false else binary (digits d) | None => false end.
(** 3190-3201, for one operand: opa[-prec:].  (prec is at least 1 in every context.) *)
Definition fill (prec : nat) (op : list Z) : list Z :=
  if Nat.ltb (length op) prec then repeat 0 (prec - length op) ++ op
  else if Nat.ltb prec (length op) then skipn (length op - prec) op
  else op.
(** "".join(str(f(int(a), int(b))) for a, b in zip(opa, opb)) *)
Definition each (f : Z -> Z -> Z) (a b : list Z) : list Z := map (fun p => f (fst p) (snd p)) (combine a b).
Fixpoint lstrip (l : list Z) : list Z := match l with d :: r => if d =? 0 then lstrip r else l | [] => [] end.
Definition clean (l : list Z) : decimal := Decimal 0 (Some 0) (match lstrip l with [] => [0] | r => r end).
(** 3203-3218 *)
Definition logical_and (prec : nat) (a b : decimal) : outcome :=
  if negb (is_logical a) || negb (is_logical b) then Invalid
  else Gives (clean (each Z.land (fill prec (digits a)) (fill prec (digits b)))).
(** 3226-3241 *)
Definition logical_or (prec : nat) (a b : decimal) : outcome :=
  if negb (is_logical a) || negb (is_logical b) then Invalid
  else Gives (clean (each Z.lor (fill prec (digits a)) (fill prec (digits b)))).
(** 3243-3258 *)
Definition logical_xor (prec : nat) (a b : decimal) : outcome :=
  if negb (is_logical a) || negb (is_logical b) then Invalid
  else Gives (clean (each Z.lxor (fill prec (digits a)) (fill prec (digits b)))).
(** 3220-3224 *)
Definition logical_invert (prec : nat) (a : decimal) : outcome :=
  logical_xor prec a (Decimal 0 (Some 0) (repeat 1 prec)).
