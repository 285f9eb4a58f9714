(** Model of the incremental encoders, libimpl/encodings/_encutil.py 140-157
    (StemIncrementalEncoder), with ascii.py 13-28 and latin_1.py 13-29 (_encode_chunk) and
    the standard library's codecs.BufferedIncrementalEncoder.encode.  Also the stream
    classes, 178-184.

    Texts are lists of code points.  [limit] is 128 for ascii and 256 for latin-1.  An
    error handler gives the encoded replacement of a character, or None to raise; it
    resumes after the character, as those of the standard library do. *)
From Coq Require Import ZArith List Bool.
From Verif Require Import Py.
Import ListNotations.
Local Open Scope Z_scope.

Section Encoder.
Variable limit : Z.
Variable handler : Z -> option (list Z).

(** _encode_chunk from position 0: the output, the rest from the first character that
    cannot be encoded. *)
Fixpoint encode_chunk (input : list Z) : list Z * list Z :=
  match input with
  | [] => ([], [])
  | c :: r =>
      if c <? limit then let (out, rest) := encode_chunk r in (c :: out, rest)
      else ([], input)
  end.

(** 141-157, _buffer_encode: the output and what was not consumed. *)
Definition buffer_encode (input : list Z) (final : bool) : res (list Z * list Z) :=
  let (out, rest) := encode_chunk input in
  match rest with
  | [] => Ok (out, [])                                    (* no error *)
  | c :: r =>
      if negb final then Ok (out, rest)                   (* 149: or not final *)
      else
        match handler c with
        | None => Err UnicodeError
        | Some replacement => Ok (out ++ replacement, r)  (* 155: the rest is not encoded *)
        end
  end.

(** BufferedIncrementalEncoder.encode: data = buffer + input; keep what is left. *)
Definition inc_encode (buffer input : list Z) (final : bool) : res (list Z * list Z) :=
  buffer_encode (buffer ++ input) final.

(** A text given in pieces, the last one final: the outputs of the calls. *)
Fixpoint feed (buffer : list Z) (pieces : list (list Z)) (last : list Z) : res (list (list Z)) :=
  match pieces with
  | [] => do r <- inc_encode buffer last true; Ok [fst r]
  | p :: ps =>
      do r <- inc_encode buffer p false;
      do rest <- feed (snd r) ps last;
      Ok (fst r :: rest)
  end.

(** 178-184: StreamWriter.encode and StreamReader.decode always raise. *)
Definition stream_write (input : list Z) : res (list Z) := Err RuntimeError.
End Encoder.
