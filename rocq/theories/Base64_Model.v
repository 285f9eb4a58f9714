(** Model of crosshair/libimpl/binasciilib.py (binascii.b2a_base64 and a2b_base64, which
    also drive the base64 module).  Byte strings are lists of integers.  Not modelled:
    the argument type checks (make_bytes) and the canonical / ignorechars options, which
    realize and call the real function (161-174). *)
From Coq Require Import ZArith List Bool.
From Verif Require Import Py Str_Model.
Import ListNotations.
Open Scope Z_scope.

(** 29-38: the inner while loop of _bit_chunk_iter; yields, then what is accumulated *)
Fixpoint emit (fuel : nat) (obits acc bits : Z) : list Z * Z * Z :=
  match fuel with
  | O => ([], acc, bits)
  | S fuel =>
      if obits <=? bits then
        let remaining := bits - obits in
        if remaining =? 0 then
          let '(l, a, b) := emit fuel obits 0 0 in (acc :: l, a, b)
        else
          let top := acc / 2 ^ remaining in
          let bottom := acc mod 2 ^ remaining in
          let '(l, a, b) := emit fuel obits bottom remaining in (top :: l, a, b)
      else ([], acc, bits)
  end.
(** 18-41 _bit_chunk_iter *)
Fixpoint bit_chunk (ibits obits : Z) (seq : list Z) (acc bits : Z) : list Z :=
  match seq with
  | [] => if 0 <? bits then [acc * 2 ^ (obits - bits)] else []
  | chunk :: r =>
      let acc := acc * 2 ^ ibits + chunk in
      let bits := bits + ibits in
      let '(l, acc, bits) := emit (Z.to_nat bits) obits acc bits in
      l ++ bit_chunk ibits obits r acc bits
  end.
Definition bit_chunk_iter (seq : list Z) (ibits obits : Z) : list Z := bit_chunk ibits obits seq 0 0.

(** The range tables: dicts in insertion order *)
Definition table := list ((Z * Z) * Z).
(** 54-60: the first range that contains the character *)
Fixpoint lookup (t : table) (ch : Z) : option Z :=
  match t with
  | [] => None
  | ((minval, maxval), target) :: r =>
      if (minval <=? ch) && (ch <=? maxval)
      then let ch := if negb (minval =? 0) then ch - minval else ch in
           Some (if negb (target =? 0) then ch + target else ch)
      else lookup r ch
  end.
(** 44-68 _remap; [message]: an error message was given *)
Fixpoint remap (t : table) (message : bool) (input : list Z) (out : list Z) (padding : Z) : res (list Z * Z) :=
  match input with
  | [] => Ok (out, padding)
  | ch :: r =>
      match lookup t ch with
      | Some v => if negb (padding =? 0) then Err BinasciiError else remap t message r (out ++ [v]) padding
      | None => if ch =? 61 then remap t message r out (padding + 1)
                else if message then Err BinasciiError
                else remap t message r out padding
      end
  end.
(** dict assignment *)
Fixpoint table_set (t : table) (k : Z * Z) (v : Z) : table :=
  match t with
  | [] => [(k, v)]
  | (k', v') :: r => if (fst k =? fst k') && (snd k =? snd k') then (k', v) :: r else (k', v') :: table_set r k v
  end.
(** 71-75 _reverse_map *)
Definition reverse_map (t : table) : table :=
  fold_left (fun ret '((minval, maxval), target) => table_set ret (target, target + maxval - minval) minval) t [].
(** 78-85 *)
Definition decode_base64_map : table := [((65, 90), 0); ((97, 122), 26); ((48, 57), 52); ((43, 43), 62); ((47, 47), 63)].
Definition encode_base64_map : table := reverse_map decode_base64_map.
(** 10-12 *)
Definition std_alphabet : list Z :=
  [65;66;67;68;69;70;71;72;73;74;75;76;77;78;79;80;81;82;83;84;85;86;87;88;89;90;
   97;98;99;100;101;102;103;104;105;106;107;108;109;110;111;112;113;114;115;116;117;118;119;120;121;122;
   48;49;50;51;52;53;54;55;56;57;43;47].
Definition at_ (a : list Z) (i : Z) : Z := nth (Z.to_nat i) a 0.
(** 113-117: the inner loop; advances v while the next character is consecutive *)
Fixpoint run_end (fuel : nat) (a : list Z) (start v : Z) : Z :=
  match fuel with
  | O => v
  | S fuel => if (v + 1 <? 64) && (at_ a (v + 1) =? at_ a start + (v + 1 - start))
              then run_end fuel a start (v + 1) else v
  end.
(** 111-119: the outer loop; every step advances v, so 64 steps suffice *)
Fixpoint alphabet_ranges (fuel : nat) (a : list Z) (v : Z) (t : table) : table :=
  match fuel with
  | O => t
  | S fuel =>
      if v <? 64 then
        let e := run_end 64 a v v in
        alphabet_ranges fuel a (e + 1) (table_set t (v, e) (at_ a v))
      else t
  end.
(** 101-120 _encode_map_from_alphabet *)
Definition encode_map_from_alphabet (a : list Z) : res table :=
  if negb (slen a =? 64) then Err ValueError else Ok (alphabet_ranges 64 a 0 []).
Definition is_std (a : list Z) : bool := if list_eq_dec Z.eq_dec a std_alphabet then true else false.

(** 145-151: the newline wrapping loop *)
Fixpoint wrap_loop (width idx : Z) (l : list Z) : list Z :=
  match l with
  | [] => []
  | ch :: r => (if negb (idx =? 0) && (idx mod width =? 0) then [10] else []) ++ ch :: wrap_loop width (idx + 1) r
  end.
(** 123-154 _b2a_base64 *)
Definition m_b2a_base64 (data : list Z) (newline : bool) (wrapcol : Z) (padded : bool) (alphabet : list Z) : res (list Z) :=
  do encode_map <- (if is_std alphabet then Ok encode_base64_map else encode_map_from_alphabet alphabet);
  do rp <- remap encode_map false (bit_chunk_iter data 8 6) [] 0;
  let output_ints := fst rp in
  let output_ints :=
    if padded then
      let spillover := slen output_ints mod 4 in
      if 0 <? spillover then output_ints ++ repeat 61 (Z.to_nat (4 - spillover)) else output_ints
    else output_ints in
  let output_ints :=
    if negb (wrapcol =? 0) && negb (slen output_ints =? 0) then
      let width := if wrapcol <? 4 then 4 else wrapcol / 4 * 4 in
      wrap_loop width 0 output_ints
    else output_ints in
  Ok (if newline then output_ints ++ [10] else output_ints).
(** 157-209 _a2b_base64, without canonical and ignorechars *)
Definition m_a2b_base64 (data : list Z) (strict_mode padded : bool) (alphabet : list Z) : res (list Z) :=
  do decode_map <- (if is_std alphabet then Ok decode_base64_map
                    else map_res reverse_map (encode_map_from_alphabet alphabet));
  do rp <- remap decode_map strict_mode data [] 0;
  let '(input_ints, padding_count) := rp in
  let n := slen input_ints in
  let uneven := negb (n mod 4 =? 0) in
  do _ <- (if uneven then
             if n mod 4 =? 1 then Err BinasciiError
             else if padded then
               let expected := 4 - n mod 4 in
               if padding_count <? expected then Err BinasciiError
               else if strict_mode && (expected <? padding_count) then Err BinasciiError
               else Ok tt
             else Ok tt
           else Ok tt);
  let output_ints := bit_chunk_iter input_ints 6 8 in
  Ok (if uneven then sslice output_ints None (Some (-1)) else output_ints).
