(** Model of crosshair/libimpl/encodings: _encutil.py (the codec driver), utf_8.py,
    latin_1.py and ascii.py.  Strings are lists of code points, byte strings lists of
    integers.  The codecs return on one path what they return symbolically. *)
From Coq Require Import ZArith List Bool.
From Verif Require Import Py Str_Model.
Import ListNotations.
Open Scope Z_scope.

(** _encutil.py 16-31; the reason texts are not modelled *)
Inductive chunk_error := UnexpectedEnd | MidChunk.
(** What _encode_chunk and _decode_chunk return: output, position, error *)
Definition chunk := (str * Z * option chunk_error)%type.
(** What a codec call returns: the output and the position reached, or a
    UnicodeDecodeError / UnicodeEncodeError with its start and end, or [CFuel] when the
    model's loop ran out of fuel *)
Inductive cres := COk (out : str) (idx : Z) | CErr (start stop : Z) | CFuel.
(** codecs.lookup_error(errors): given the object, start and end of the error, a
    replacement and the position to resume at, or re-raise (None).  For encoding the
    replacement is given already encoded (_encutil.py 92-93). *)
Definition handler := str -> Z -> Z -> option (str * Z).

Definition byte_at (b : str) (i : Z) : Z := nth (Z.to_nat i) b 0.

(** _encutil.py 71-95 StemEncoder.encode *)
Fixpoint encode_loop (enc : str -> Z -> chunk) (h : handler) (fuel : nat) (input : str) (parts : str) (idx : Z) : cres :=
  if idx <? slen input then
    match fuel with
    | O => CFuel
    | S fuel =>
        let '(out, idx, err) := enc input idx in
        let parts := parts ++ out in
        match err with
        | None => encode_loop enc h fuel input parts idx
        | Some _ =>
            match h input idx (idx + 1) with
            | None => CErr idx (idx + 1)
            | Some (replacement, idx) => encode_loop enc h fuel input (parts ++ replacement) idx
            end
        end
    end
  else COk parts idx.
Definition m_encode enc h input := encode_loop enc h (length input) input [] 0.

(** The value of the errors argument (_encutil.py 111-124) *)
Inductive errmode := Strict | Ignore | Replace | Other (h : handler).
(** _encutil.py 97-132 StemEncoder.decode *)
Fixpoint decode_loop (dec : str -> Z -> chunk) (errors : errmode) (fuel : nat) (input : str) (parts : str) (idx : Z) : cres :=
  if idx <? slen input then
    match fuel with
    | O => CFuel
    | S fuel =>
        let '(out, idx, err) := dec input idx in
        let parts := parts ++ out in
        match err with
        | None => decode_loop dec errors fuel input parts idx
        | Some _ =>
            match errors with
            | Strict => CErr idx (idx + 1)
            | Ignore => decode_loop dec errors fuel input parts (idx + 1)
            | Replace => decode_loop dec errors fuel input (parts ++ [0xFFFD]) (idx + 1)
            | Other h =>
                match h input idx (idx + 1) with
                | None => CErr idx (idx + 1)
                | Some (replacement, idx) => decode_loop dec errors fuel input (parts ++ replacement) idx
                end
            end
        end
    end
  else COk parts idx.
Definition m_decode dec errors input := decode_loop dec errors (length input) input [] 0.

(** _encutil.py 159-174 StemIncrementalDecoder._buffer_decode, with the standard
    library's BufferedIncrementalDecoder.decode: prepend the kept bytes, decode, keep
    what was not consumed.  Result: output and new kept bytes.  On empty data
    [_decode_chunk] of UTF-8 reads byts[0]: IndexError. *)
Definition m_incremental_decode (dec : str -> Z -> res chunk) (h : handler) (kept input : str) (final : bool) : res (str * str) :=
  let data := kept ++ input in
  do c <- dec data 0;
  let '(out, idx, err) := c in
  match err with
  | None => Ok (out, sslice data (Some idx) None)
  | Some UnexpectedEnd => Ok (out, sslice data (Some idx) None)
  | Some MidChunk =>
      if negb final then Ok (out, sslice data (Some idx) None)
      else match h data idx (idx + 1) with
           | None => Err UnicodeError
           | Some (replacement, idx) => Ok (out ++ replacement, sslice data (Some idx) None)
           end
  end.

(** *** utf_8.py *)
(** 13-33 *)
Definition encode_codepoint (cp : Z) : list Z :=
  if cp <=? 127 then [cp]
  else if cp <=? 2047 then
    [192 + Z.land (Z.shiftr cp 6) 31; 128 + Z.land cp 63]
  else if cp <=? 65535 then
    [224 + Z.land (Z.shiftr cp 12) 15; 128 + Z.land (Z.shiftr cp 6) 63; 128 + Z.land cp 63]
  else
    [240 + Z.land (Z.shiftr cp 18) 7; 128 + Z.land (Z.shiftr cp 12) 63;
     128 + Z.land (Z.shiftr cp 6) 63; 128 + Z.land cp 63].
(** 39-46 *)
Definition utf8_encode_chunk (s : str) (start : Z) : chunk :=
  (flat_map encode_codepoint (sslice s (Some start) None), slen s, None).
(** 77-82: the loop over the continuation bytes at idx .. idx+n-1; None: bad byte *)
Fixpoint continuation (b : str) (n : nat) (idx : Z) (cp : Z) : option Z :=
  match n with
  | O => Some cp
  | S n =>
      let byt := byte_at b idx in
      if (128 <=? byt) && (byt <=? 191) then continuation b n (idx + 1) (cp * 64 + (byt - 128))
      else None
  end.
(** 49-86; [start] is a valid index (the driver calls it so) *)
Definition utf8_decode_chunk (b : str) (start : Z) : chunk :=
  let num_bytes := slen b in
  let byt := byte_at b start in
  let end_ := start + 1 in
  let lead : option (Z * Z * Z * Z) :=
    if 192 <=? byt then
      let end_ := end_ + 1 in
      if 224 <=? byt then
        let end_ := end_ + 1 in
        if 240 <=? byt then
          if 247 <? byt then None
          else Some (end_ + 1, Z.land byt 7, 0x10000, 0x10FFFF)
        else if 239 <? byt then None
        else Some (end_, Z.land byt 15, 0x0800, 0xFFFF)
      else if 223 <? byt then None
      else Some (end_, Z.land byt 31, 0x80, 0x7FF)
    else Some (end_, byt, 0, 0x7F) in
  match lead with
  | None => ([], start, Some MidChunk)
  | Some (end_, cp, mincp, maxcp) =>
      if num_bytes <? end_ then ([], start, Some UnexpectedEnd)
      else match continuation b (Z.to_nat (end_ - (start + 1))) (start + 1) cp with
           | None => ([], start, Some MidChunk)
           | Some cp => if (mincp <=? cp) && (cp <=? maxcp) then ([cp], end_, None)
                        else ([], start, Some MidChunk)
           end
  end.
(** The same when called by the incremental decoder: byts[0] of empty data raises *)
Definition utf8_decode_chunk_checked (b : str) (start : Z) : res chunk :=
  if slen b <=? start then Err IndexError else Ok (utf8_decode_chunk b start).

(** *** ascii.py 11-42 and latin_1.py 11-39: both encoders scan up to the first
    character over the limit *)
Fixpoint scan (limit : Z) (s : str) (idx : Z) : str * Z * option chunk_error :=
  match s with
  | [] => ([], idx, None)
  | cp :: r =>
      if limit <=? cp then ([], idx, Some MidChunk)
      else let '(out, i, e) := scan limit r (idx + 1) in (cp :: out, i, e)
  end.
(** ascii.py 15-28; latin_1.py 15-30 with limit 256 *)
Definition ascii_encode_chunk (s : str) (start : Z) : chunk := scan 128 (sslice s (Some start) None) start.
Definition latin1_encode_chunk (s : str) (start : Z) : chunk := scan 256 (sslice s (Some start) None) start.
(** ascii.py 31-42 *)
Definition ascii_decode_chunk (b : str) (start : Z) : chunk := scan 128 (sslice b (Some start) None) start.
(** latin_1.py 33-39 *)
Definition latin1_decode_chunk (b : str) (start : Z) : chunk := (sslice b (Some start) None, slen b, None).
