(** Model of the bytes-specific code: crosshair/libimpl/builtinslib.py 4034-4240 (hex
    digits, ASCII case, hex), 4329-4359 (fromhex), 4362-4395 and 4402-4473 (bytearray). *)
From Coq Require Import ZArith List Bool.
From Verif Require Import Py PySeq_Spec Seq_Model Str_Model.
Import ListNotations.
Open Scope Z_scope.

(** 4034-4039; ord("0") = 48, ord("a") - 10 = 87, ord("A") - 10 = 55 *)
Definition make_hex_digit (value : Z) : Z :=
  let num := value mod 16 in if num <? 10 then 48 + num else 87 + num.
(** 4042-4049 *)
Definition parse_hex_digit (c : Z) : option Z :=
  if (48 <=? c) && (c <? 58) then Some (c - 48)
  else if (97 <=? c) && (c <=? 102) then Some (c - 87)
  else if (65 <=? c) && (c <=? 70) then Some (c - 55)
  else None.
(** 4052-4064 *)
Definition is_ascii_space_ord (c : Z) : bool := ((9 <=? c) && (c <=? 13)) || (c =? 32).

(** 4100-4113 _ch_swap_ascii_case, with bool as 0/1 *)
Definition b2z (b : bool) : Z := if b then 1 else 0.
Definition swap_ascii_case (byte : Z) (do_lower do_upper : bool) : Z :=
  let delta := 0 in
  let delta := if do_lower then delta + 32 * b2z ((65 <=? byte) && (byte <=? 90)) else delta in
  let delta := if do_upper then delta - 32 * b2z ((97 <=? byte) && (byte <=? 122)) else delta in
  byte + delta.
(** 4119-4132 *)
Definition m_blower (s : str) : str := map (fun b => swap_ascii_case b true false) s.
Definition m_bupper (s : str) : str := map (fun b => swap_ascii_case b false true) s.
Definition m_bswapcase (s : str) : str := map (fun b => swap_ascii_case b true true) s.
(** 4140-4143 _ch_is_stripped; with lstrip/rstrip/strip as in Str_Model *)
Definition is_stripped (targets : option str) (byte : Z) : bool :=
  match targets with None => is_ascii_space_ord byte | Some ts => existsb (Z.eqb byte) ts end.

(** 4207-4214 hex() *)
Definition m_hex (s : str) : str :=
  flat_map (fun byt => map (fun ishigh : bool => make_hex_digit (if ishigh then byt / 16 else byt)) [true; false]) s.
(** 4215-4240 hex(sep, bytes_per_sep), [sep] one ASCII character *)
Fixpoint hex_loop (sep : str) (bps start idx : Z) (l : str) : str :=
  match l with
  | [] => []
  | byt :: r =>
      (if negb (idx =? start) && (idx mod bps =? 0) then sep else [])
      ++ [make_hex_digit (byt / 16); make_hex_digit byt] ++ hex_loop sep bps start (idx + 1) r
  end.
Definition m_hex_sep (s : str) (sep : Z) (bps : Z) : str :=
  let '(sep, start, bps) :=
    if 0 <=? bps then
      if bps =? 0 then ([], 0, 1) else ([sep], slen s mod bps, bps)
    else ([sep], 0, - bps) in
  hex_loop sep bps start start s.

(** 4329-4359 fromhex *)
Fixpoint fromhex_loop (l : str) (high : option Z) (acc : str) : res str :=
  match l with
  | [] => match high with Some _ => Err ValueError | None => Ok acc end
  | ch :: r =>
      if negb (ch <? 128) then Err ValueError
      else if match high with None => is_ascii_space_ord ch | Some _ => false end
      then fromhex_loop r high acc
      else match parse_hex_digit ch with
           | None => Err ValueError
           | Some d => match high with
                       | None => fromhex_loop r (Some (d * 16)) acc
                       | Some h => fromhex_loop r None (acc ++ [h + d])
                       end
           end
  end.
Definition m_fromhex (s : str) : res str := fromhex_loop s None [].

(** *** bytearray *)
(** 4362-4365 *)
Definition out_of_byte_range (v : Z) : bool := (v <? 0) || (255 <? v).
(** An operation of ShellMutableSequence on a bytearray; the flag says whether the
    value given to extend or a slice assignment is bytes-like (4378-4395). *)
Definition bop := (sop Z * bool)%type.
(** 4447-4464: append, extend, insert and __setitem__ validate their values first *)
Definition validated (o : sop Z) (bytes_like : bool) : res (sop Z) :=
  let byte_ x := if out_of_byte_range x then Err ValueError else Ok tt in
  let values (v : pseq Z) :=
    if bytes_like then Ok v
    else do l <- m_iter v;
         if existsb out_of_byte_range l then Err ValueError else Ok (PRaw false l) in
  match o with
  | OAppend x => do _ <- byte_ x; Ok o
  | OInsert i x => do _ <- byte_ x; Ok o
  | OSet i x => do _ <- byte_ x; Ok o
  | OExtend v => do v <- values v; Ok (OExtend v)
  | OSetSlice sl v => do v <- values v; Ok (OSetSlice sl v)
  | o => Ok o
  end.
Definition m_bstep (s : pseq Z) (o : bop) : sout Z * pseq Z :=
  match validated (fst o) (snd o) with Err e => (ORaise e, s) | Ok o => m_step s o end.
Fixpoint m_brun (s : pseq Z) (l : list bop) : list (sout Z) * pseq Z :=
  match l with
  | [] => ([], s)
  | o :: l => let '(r, s) := m_bstep s o in let '(rs, s) := m_brun s l in (r :: rs, s)
  end.
(** 4808-4819 bytearray(source) and 4822-4835 bytes(source) for a sequence of ints
    (symbolic ones, in the latter): stored as given *)
Definition m_bytearray (source : list Z) : res (list Z) := Ok source.
Definition m_bytes (source : list Z) : res (list Z) := Ok source.
