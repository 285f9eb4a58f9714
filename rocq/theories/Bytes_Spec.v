(** What Python's bytes and bytearray do. *)
From Coq Require Import ZArith List Bool.
From Verif Require Import Py PySeq_Spec Seq_Model Seq_Spec Str_Spec.
Import ListNotations.
Open Scope Z_scope.

Definition byte (b : Z) : Prop := 0 <= b <= 255.
(** "0123456789abcdef" *)
Definition hex_digits : list Z := [48; 49; 50; 51; 52; 53; 54; 55; 56; 57; 97; 98; 99; 100; 101; 102].
Definition hex2 (b : Z) : list Z := [nth (Z.to_nat (b / 16)) hex_digits 0; nth (Z.to_nat (b mod 16)) hex_digits 0].
Definition py_hex (s : list Z) : list Z := flat_map hex2 s.
(** bytes.hex(sep, k): groups of k bytes counted from the right, of -k from the left *)
Definition sep_before (n k i : Z) : bool :=
  negb (i =? 0) && (if 0 <? k then (n - i) mod k =? 0 else if k <? 0 then i mod (- k) =? 0 else false).
Fixpoint hex_groups (n k sep i : Z) (s : list Z) : list Z :=
  match s with
  | [] => []
  | b :: r => (if sep_before n k i then [sep] else []) ++ hex2 b ++ hex_groups n k sep (i + 1) r
  end.
Definition py_hex_sep s sep k := hex_groups (len s) k sep 0 s.

(** bytes.fromhex: pairs of hex digits of either case, whitespace between pairs *)
Definition ascii_space (c : Z) : Prop := In c [9; 10; 11; 12; 13; 32].
Definition hex_value (c d : Z) : Prop :=
  0 <= d < 16 /\ (c = nth (Z.to_nat d) hex_digits 0 \/ 10 <= d /\ c = nth (Z.to_nat d) hex_digits 0 - 32).
Inductive hexparse : list Z -> list Z -> Prop :=
| hp_nil : hexparse [] []
| hp_space c s l : ascii_space c -> hexparse s l -> hexparse (c :: s) l
| hp_pair c d h k s l : hex_value c h -> hex_value d k -> hexparse s l -> hexparse (c :: d :: s) (16 * h + k :: l).

Definition py_lower b := if (65 <=? b) && (b <=? 90) then b + 32 else b.
Definition py_upper b := if (97 <=? b) && (b <=? 122) then b - 32 else b.
Definition py_swap b := if (65 <=? b) && (b <=? 90) then b + 32 else if (97 <=? b) && (b <=? 122) then b - 32 else b.

(** A bytearray: a list of bytes; storing anything else is a ValueError and changes
    nothing. *)
Definition stored (o : sop Z) : list Z :=
  match o with
  | OAppend x | OInsert _ x | OSet _ x => [x]
  | OExtend v | OSetSlice _ v => contents v
  | _ => []
  end.
Definition ba_step (l : list Z) (o : sop Z) : sout Z * list Z :=
  if forallb (fun x => (0 <=? x) && (x <=? 255)) (stored o) then l_step l o else (ORaise ValueError, l).
Fixpoint ba_run (l : list Z) (ops : list (sop Z)) : list (sout Z) * list Z :=
  match ops with
  | [] => ([], l)
  | o :: ops => let '(r, l) := ba_step l o in let '(rs, l) := ba_run l ops in (r :: rs, l)
  end.
Definition py_bytes (source : list Z) : res (list Z) :=
  if forallb (fun x => (0 <=? x) && (x <=? 255)) source then Ok source else Err ValueError.
