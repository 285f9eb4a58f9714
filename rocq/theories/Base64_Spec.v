(** Base 64 (RFC 4648, section 4) and CPython's binascii.a2b_base64 (Modules/binascii.c,
    3.11). *)
From Coq Require Import ZArith List Bool.
Import ListNotations.
Open Scope Z_scope.

Definition octet (b : Z) : Prop := 0 <= b < 256.
(** "ABC...Zabc...z0123456789+/" *)
Definition b64_char (v : Z) : Z :=
  if v <? 26 then 65 + v else if v <? 52 then 97 + (v - 26) else if v <? 62 then 48 + (v - 52)
  else if v =? 62 then 43 else 47.
Definition b64_value (c : Z) : option Z :=
  if (65 <=? c) && (c <=? 90) then Some (c - 65)
  else if (97 <=? c) && (c <=? 122) then Some (c - 97 + 26)
  else if (48 <=? c) && (c <=? 57) then Some (c - 48 + 52)
  else if c =? 43 then Some 62 else if c =? 47 then Some 63 else None.
Definition pad : Z := 61.

(** Three octets are four characters; a final group of one or two octets is filled with
    zero bits and, if asked, with pad characters. *)
Fixpoint b64_encode (ch : Z -> Z) (padded : bool) (l : list Z) : list Z :=
  match l with
  | [] => []
  | [x] => [ch (x / 4); ch (x mod 4 * 16)] ++ if padded then [pad; pad] else []
  | [x; y] => [ch (x / 4); ch (x mod 4 * 16 + y / 16); ch (y mod 16 * 4)] ++ if padded then [pad] else []
  | x :: y :: z :: r =>
      [ch (x / 4); ch (x mod 4 * 16 + y / 16); ch (y mod 16 * 4 + z / 64); ch (z mod 64)] ++ b64_encode ch padded r
  end.

(** CPython's decoder: position in the quad, bits left over, pad characters seen in this
    quad, whether any pad character was seen. None: binascii.Error. *)
Record st := mkSt { out : list Z; quad : Z; left_ : Z; pads : Z; started : bool }.
Fixpoint py_run (strict : bool) (l : list Z) (s : st) : option (list Z) :=
  match l with
  | [] => if quad s =? 0 then Some (out s) else None
  | c :: r =>
      if c =? pad then
        let p := if 2 <=? quad s then pads s + 1 else pads s in
        if (2 <=? quad s) && (4 <=? quad s + p) then
          if strict && negb (Nat.eqb (length r) 0) then None else Some (out s)
        else py_run strict r (mkSt (out s) (quad s) (left_ s) p true)
      else match b64_value c with
           | None => if strict then None else py_run strict r s
           | Some v =>
               if strict && started s then None
               else if quad s =? 0 then py_run strict r (mkSt (out s) 1 v 0 (started s))
               else if quad s =? 1 then py_run strict r (mkSt (out s ++ [left_ s * 4 + v / 16]) 2 (v mod 16) 0 (started s))
               else if quad s =? 2 then py_run strict r (mkSt (out s ++ [left_ s * 16 + v / 4]) 3 (v mod 4) 0 (started s))
               else py_run strict r (mkSt (out s ++ [left_ s * 64 + v]) 0 0 0 (started s))
           end
  end.
Definition py_a2b (strict : bool) (l : list Z) : option (list Z) :=
  if strict && match l with c :: _ => c =? pad | [] => false end then None
  else py_run strict l (mkSt [] 0 0 0 false).

(** Output broken into lines: every line but the last has [w] characters, the last has
    between one and [w] *)
Fixpoint lines_of (w : Z) (ls : list (list Z)) : Prop :=
  match ls with
  | [] => False
  | [l] => 0 < Z.of_nat (length l) <= w
  | l :: r => Z.of_nat (length l) = w /\ lines_of w r
  end.
