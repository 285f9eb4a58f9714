(** Model of Decimal.rotate and Decimal.shift: crosshair/libimpl/decimallib.py 3458-3488, 3515-3550.
    Coefficients are the texts of digits the code holds, here lists of digits, most significant
    first.  NaN operands leave by _check_nans before what is modelled (3465-3467, 3522-3524; that is in
    Dec_Model).  The precision is a parameter. *)
From Coq Require Import ZArith List Bool.
Import ListNotations.
Open Scope Z_scope.
Inductive dec := Fin (negative : bool) (digits : list Z) (exp : Z) | Inf (negative : bool).
Inductive outcome := Answer (d : dec) | InvalidOperation.
(** int of a text of digits *)
Definition int_of (l : list Z) : Z := fold_left (fun a d => a * 10 + d) l 0.
(** slices l[i:] and l[:i], where negative i count from the end *)
Definition index (l : list Z) (i : Z) : nat :=
  Z.to_nat (if i <? 0 then Z.of_nat (length l) + i else i).
Definition from (l : list Z) (i : Z) : list Z := skipn (index l i) l.
Definition upto (l : list Z) (i : Z) : list Z := firstn (index l i) l.
Definition zeros (n : Z) : list Z := repeat 0 (Z.to_nat n).
(** lstrip("0") *)
Fixpoint lstrip (l : list Z) : list Z :=
  match l with
  | d :: r => if d =? 0 then lstrip r else l
  | [] => []
  end.
(** x or "0" *)
Definition or_zero (l : list Z) : list Z := match l with [] => [0] | _ => l end.
(** 3469-3472, 3526-3529: the number of places, for an integral other within the precision *)
Definition places (prec : Z) (other : dec) : option Z :=
  match other with
  | Inf _ => None
  | Fin neg l e =>
      if negb (e =? 0) then None
      else let n := if neg then - int_of l else int_of l in
           if (- prec <=? n) && (n <=? prec) then Some n else None
  end.
(** 3479-3484, 3536-3541 *)
Definition pad (prec : Z) (l : list Z) : list Z :=
  let topad := prec - Z.of_nat (length l) in
  if 0 <? topad then zeros topad ++ l
  else if topad <? 0 then from l (- topad)
  else l.
(** 3469-3488 *)
Definition rotate (prec : Z) (self other : dec) : outcome :=
  match places prec other with
  | None => InvalidOperation
  | Some torot =>
      match self with
      | Inf s => Answer (Inf s)
      | Fin s l e =>
          let rotdig := pad prec l in
          let rotated := from rotdig torot ++ upto rotdig torot in
          Answer (Fin s (or_zero (lstrip rotated)) e)
      end
  end.
(** 3526-3550 *)
Definition shift (prec : Z) (self other : dec) : outcome :=
  match places prec other with
  | None => InvalidOperation
  | Some torot =>
      match self with
      | Inf s => Answer (Inf s)
      | Fin s l e =>
          let rotdig := pad prec l in
          let shifted :=
            if torot <? 0 then upto rotdig torot
            else from (rotdig ++ zeros torot) (- prec) in
          Answer (Fin s (or_zero (lstrip shifted)) e)
      end
  end.
