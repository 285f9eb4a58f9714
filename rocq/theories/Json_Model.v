(** Model of crosshair/libimpl/jsonlib.py: the encoder and the decoder used for json.dumps and
    json.loads while CrossHair runs.  Strings are lists of code points.  A position [end] in the
    text being read is represented by the text from there on, so [s[end:]] is [s] and
    [end += 1] drops a character.  Not modelled: the object, number and constant hooks, sort_keys,
    a custom [default], the detection of circular references (values are finite trees), the
    messages and positions carried by JSONDecodeError. *)
From Coq Require Import ZArith List Bool.
From Verif Require Import Py.
Import ListNotations.
Open Scope Z_scope.

Notation str := (list Z).

(** what reading can end in: a result, StopIteration, JSONDecodeError, another exception, or
    (in the model only) no fuel left *)
Inductive jres (A : Type) : Type :=
| JOk (a : A) | JStop | JBad | JErr (e : exc) | JFuel.
Arguments JOk {A} a. Arguments JStop {A}. Arguments JBad {A}. Arguments JErr {A} e. Arguments JFuel {A}.
Definition jbind {A B} (r : jres A) (f : A -> jres B) : jres B :=
  match r with JOk a => f a | JStop => JStop | JBad => JBad | JErr e => JErr e | JFuel => JFuel end.
Definition of_res {A} (r : res A) : jres A := match r with Ok a => JOk a | Err e => JErr e end.

(** the values read *)
Inductive val (F : Type) : Type :=
| JNull | JBool (b : bool) | JInt (z : Z) | JFloat (f : F) | JStr (s : str)
| JList (l : list (val F)) | JDict (l : list (str * val F)).
Arguments JNull {F}. Arguments JBool {F} b. Arguments JInt {F} z. Arguments JFloat {F} f. Arguments JStr {F} s.
Arguments JList {F} l. Arguments JDict {F} l.

(** the values written; [KOther] and [POther] stand for objects of any other type *)
Inductive key (F : Type) : Type := KStr (s : str) | KFloat (f : F) | KBool (b : bool) | KNone | KInt (z : Z) | KOther.
Arguments KStr {F} s. Arguments KFloat {F} f. Arguments KBool {F} b. Arguments KNone {F}. Arguments KInt {F} z. Arguments KOther {F}.
Inductive pyv (F : Type) : Type :=
| PNone | PBool (b : bool) | PInt (z : Z) | PFloat (f : F) | PStr (s : str)
| PList (l : list (pyv F)) | PTuple (l : list (pyv F)) | PDict (l : list (key F * pyv F)) | POther.
Arguments PNone {F}. Arguments PBool {F} b. Arguments PInt {F} z. Arguments PFloat {F} f. Arguments PStr {F} s.
Arguments PList {F} l. Arguments PTuple {F} l. Arguments PDict {F} l. Arguments POther {F}.

(** * Writing strings *)
(** the digits of "{0:04x}".format(n), for n below 0x10000 *)
Definition hexdigit (d : Z) : Z := if d <? 10 then 48 + d else 87 + d.
Definition fmt04x (n : Z) : str :=
  [hexdigit (n / 4096 mod 16); hexdigit (n / 256 mod 16); hexdigit (n / 16 mod 16); hexdigit (n mod 16)].
(** 31-41 ESCAPE_DCT *)
Definition escape_dct (c : Z) : option str :=
  if c =? 92 then Some [92; 92]
  else if c =? 34 then Some [92; 34]
  else if c =? 8 then Some [92; 98]
  else if c =? 12 then Some [92; 102]
  else if c =? 10 then Some [92; 110]
  else if c =? 13 then Some [92; 114]
  else if c =? 9 then Some [92; 116]
  else if (0 <=? c) && (c <? 32) then Some ([92; 117] ++ fmt04x c)
  else None.
(** 28 ESCAPE, 29 ESCAPE_ASCII: the characters they match *)
Definition escape (c : Z) : bool := ((0 <=? c) && (c <=? 31)) || (c =? 92) || (c =? 34).
Definition escape_ascii (c : Z) : bool := (c =? 92) || (c =? 34) || negb ((32 <=? c) && (c <=? 126)).
(** 50-51 *)
Definition replace (c : Z) : str := match escape_dct c with Some r => r | None => [] end.
(** 62-76 *)
Definition replace_ascii (c : Z) : str :=
  match escape_dct c with
  | Some r => r
  | None =>
      if c <? 65536 then [92; 117] ++ fmt04x c
      else let n := c - 65536 in
           let s1 := Z.lor 55296 (Z.land (Z.shiftr n 10) 1023) in
           let s2 := Z.lor 56320 (Z.land n 1023) in
           [92; 117] ++ fmt04x s1 ++ [92; 117] ++ fmt04x s2
  end.
(** re.sub of a one-character pattern *)
Definition sub (pat : Z -> bool) (rep : Z -> str) (s : str) : str :=
  concat (map (fun c => if pat c then rep c else [c]) s).
(** 47-53, 59-78 *)
Definition encode_basestring (s : str) : str := [34] ++ sub escape replace s ++ [34].
Definition encode_basestring_ascii (s : str) : str := [34] ++ sub escape_ascii replace_ascii s ++ [34].

Section Json.
Variable F : Type.
(** float equality, the constants NaN, PosInf, NegInf (491-493) *)
Variable feq : F -> F -> bool.
Variables nan inf neginf : F.
(** float.__repr__, int.__repr__, float(str), int(str) *)
Variable float_repr : F -> str.
Variable int_repr : Z -> str.
Variable parse_float : str -> res F.
Variable parse_int : str -> res Z.
(** int(esc, 16) *)
Variable int16 : str -> res Z.

(** * Writing *)
Record options := { skipkeys : bool; ensure_ascii : bool; allow_nan : bool; indent : option str; item_separator : str; key_separator : str }.

(** 107-110: the separators in effect; [i] is the indent argument after 223-224 *)
Definition separators_of (separators : option (str * str)) (i : option str) : str * str :=
  match separators with
  | Some s => s
  | None => match i with Some _ => ([44], [58; 32]) | None => ([44; 32], [58; 32]) end
  end.

(** 139-142 *)
Definition encoder (o : options) (s : str) : str := if ensure_ascii o then encode_basestring_ascii s else encode_basestring s.
(** 144-169 *)
Definition floatstr (o : options) (f : F) : res str :=
  if negb (feq f f) then (if allow_nan o then Ok [78; 97; 78] else Err ValueError)
  else if feq f inf then (if allow_nan o then Ok [73; 110; 102; 105; 110; 105; 116; 121] else Err ValueError)
  else if feq f neginf then (if allow_nan o then Ok [45; 73; 110; 102; 105; 110; 105; 116; 121] else Err ValueError)
  else Ok (float_repr f).
(** 306-328: the key as a string; None when it is skipped *)
Definition keystr (o : options) (k : key F) : res (option str) :=
  match k with
  | KStr s => Ok (Some s)
  | KFloat f => do s <- floatstr o f; Ok (Some s)
  | KBool true => Ok (Some [116; 114; 117; 101])
  | KBool false => Ok (Some [102; 97; 108; 115; 101])
  | KNone => Ok (Some [110; 117; 108; 108])
  | KInt z => Ok (Some (int_repr z))
  | KOther => if skipkeys o then Ok None else Err TypeError
  end.
(** "\n" + _indent * level *)
Definition newline (i : str) (level : nat) : str := 10 :: concat (repeat i level).

(** 199-394 _make_iterencode: the concatenation of the chunks.  The three copies of the dispatch on
    the type of a value (250-274, 335-356, 365-383) are one function here. *)
Fixpoint iterencode (o : options) (v : pyv F) (level : nat) : res str :=
  let list_ (lst : list (pyv F)) : res str :=
    match lst with
    | [] => Ok [91; 93]
    | _ =>
        let level' := match indent o with Some _ => S level | None => level end in
        let nl := match indent o with Some i => newline i level' | None => [] end in
        let sep := item_separator o ++ nl in
        do body <- (fix items (l : list (pyv F)) (first : bool) : res str :=
           match l with
           | [] => Ok []
           | v :: l => do e <- iterencode o v level';
                       do r <- items l false;
                       Ok ((if first then [] else sep) ++ e ++ r)
           end) lst true;
        Ok ([91] ++ nl ++ body ++ match indent o with Some i => newline i level | None => [] end ++ [93])
    end in
  match v with
  | PStr s => Ok (encoder o s)
  | PNone => Ok [110; 117; 108; 108]
  | PBool true => Ok [116; 114; 117; 101]
  | PBool false => Ok [102; 97; 108; 115; 101]
  | PInt z => Ok (int_repr z)
  | PFloat f => floatstr o f
  | PList l => list_ l
  | PTuple l => list_ l
  | PDict [] => Ok [123; 125]
  | PDict dct =>
      let level' := match indent o with Some _ => S level | None => level end in
      let nl := match indent o with Some i => newline i level' | None => [] end in
      let sep := item_separator o ++ nl in
      do body <- (fix items (l : list (key F * pyv F)) (first : bool) : res str :=
         match l with
         | [] => Ok []
         | (k, v) :: l =>
             do k <- keystr o k;
             match k with
             | None => items l first
             | Some k => do e <- iterencode o v level';
                         do r <- items l false;
                         Ok ((if first then [] else sep) ++ encoder o k ++ key_separator o ++ e ++ r)
             end
         end) dct true;
      Ok ([123] ++ nl ++ body ++ match indent o with Some i => newline i level | None => [] end ++ [125])
  | POther => Err TypeError
  end.
(** 119-132, 817-857 *)
Definition dumps (o : options) (v : pyv F) : res str :=
  match v with PStr s => Ok (encoder o s) | _ => iterencode o v 0 end.

(** * Reading *)
(** 582-583 WHITESPACE, WHITESPACE_STR *)
Definition is_ws (c : Z) : bool := (c =? 32) || (c =? 9) || (c =? 10) || (c =? 13).
Fixpoint w (s : str) : str := match s with c :: r => if is_ws c then w r else s | [] => [] end.
(** string[idx : idx + len(p)] == p, and the text after it *)
Fixpoint after (p s : str) : option str :=
  match p, s with
  | [], _ => Some s
  | a :: p, b :: s => if a =? b then after p s else None
  | _ :: _, [] => None
  end.

(** 408-411 NUMBER_RE.match: the groups and the text after the match *)
Definition is_digit (c : Z) : bool := (48 <=? c) && (c <=? 57).
Fixpoint digits (s : str) : str * str :=
  match s with c :: r => if is_digit c then let '(a, b) := digits r in (c :: a, b) else ([], s) | [] => ([], []) end.
Definition match_integer (s : str) : option (str * str) :=
  let '(sign, s) := match s with c :: r => if c =? 45 then ([c], r) else ([], s) | [] => ([], []) end in
  match s with
  | c :: r => if c =? 48 then Some (sign ++ [c], r)
              else if (49 <=? c) && (c <=? 57) then let '(ds, r) := digits r in Some (sign ++ c :: ds, r)
              else None
  | [] => None
  end.
Definition match_frac (s : str) : str * str :=
  match s with
  | c :: r => if c =? 46 then match digits r with ([], _) => ([], s) | (ds, r) => (c :: ds, r) end else ([], s)
  | [] => ([], [])
  end.
Definition match_exp (s : str) : str * str :=
  match s with
  | c :: r => if (c =? 101) || (c =? 69) then
                let '(sign, r) := match r with d :: r' => if (d =? 45) || (d =? 43) then ([d], r') else ([], r) | [] => ([], []) end in
                match digits r with ([], _) => ([], s) | (ds, r) => (c :: sign ++ ds, r) end
              else ([], s)
  | [] => ([], [])
  end.
Definition match_number (s : str) : option (str * str * str * str) :=
  match match_integer s with
  | None => None
  | Some (i, s) => let '(f, s) := match_frac s in let '(e, s) := match_exp s in Some (i, f, e, s)
  end.

(** 505 STRINGCHUNK.match: the content, the terminator and the text after it *)
Fixpoint stringchunk (s : str) : option (str * Z * str) :=
  match s with
  | [] => None
  | c :: r => if (c =? 34) || (c =? 92) || ((0 <=? c) && (c <=? 31)) then Some ([], c, r)
              else match stringchunk r with Some (a, t, r) => Some (c :: a, t, r) | None => None end
  end.
(** 506-515 *)
Definition backslash (c : Z) : option Z :=
  if c =? 34 then Some 34 else if c =? 92 then Some 92 else if c =? 47 then Some 47 else if c =? 98 then Some 8
  else if c =? 102 then Some 12 else if c =? 110 then Some 10 else if c =? 114 then Some 13 else if c =? 116 then Some 9 else None.
(** 518-526: [s] is the text after the u *)
Definition decode_uXXXX (s : str) : jres (Z * str) :=
  match s with
  | a :: b :: c :: d :: r =>
      if (b =? 120) || (b =? 88) then JBad
      else match int16 [a; b; c; d] with Ok n => JOk (n, r) | Err ValueError => JBad | Err e => JErr e end
  | _ => JBad
  end.
(** chr *)
Definition chr (n : Z) : res Z := if (0 <=? n) && (n <=? 1114111) then Ok n else Err ValueError.
(** 529-576 *)
Fixpoint scanstring (fuel : nat) (strict : bool) (s : str) (chunks : str) : jres (str * str) :=
  match fuel with
  | O => JFuel
  | S fuel =>
      match stringchunk s with
      | None => JBad
      | Some (content, terminator, s) =>
          let chunks := chunks ++ content in
          if terminator =? 34 then JOk (chunks, s)
          else if negb (terminator =? 92) then (if strict then JBad else scanstring fuel strict s (chunks ++ [terminator]))
          else match s with
               | [] => JBad
               | esc :: s' =>
                   if negb (esc =? 117) then
                     match backslash esc with Some c => scanstring fuel strict s' (chunks ++ [c]) | None => JBad end
                   else jbind (decode_uXXXX s') (fun '(uni, s) =>
                        jbind (match (55296 <=? uni) && (uni <=? 56319), after [92; 117] s with
                               | true, Some s2 => jbind (decode_uXXXX s2) (fun '(uni2, s3) =>
                                   if (56320 <=? uni2) && (uni2 <=? 57343)
                                   then JOk (65536 + Z.lor (Z.shiftl (uni - 55296) 10) (uni2 - 56320), s3)
                                   else JOk (uni, s))
                               | _, _ => JOk (uni, s)
                               end) (fun '(uni, s) =>
                        jbind (of_res (chr uni)) (fun c => scanstring fuel strict s (chunks ++ [c]))))
               end
      end
  end.
Definition parse_string (strict : bool) (s : str) : jres (str * str) := scanstring (S (length s)) strict s [].

(** 672 dict(pairs): a repeated key keeps its place and takes the later value *)
Fixpoint seq (a b : str) : bool :=
  match a, b with [], [] => true | x :: a, y :: b => (x =? y) && seq a b | _, _ => false end.
Fixpoint assign {V : Type} (k : str) (v : V) (l : list (str * V)) : list (str * V) :=
  match l with [] => [(k, v)] | (k', v') :: l => if seq k k' then (k', v) :: l else (k', v') :: assign k v l end.
Definition dict_of {V : Type} (pairs : list (str * V)) : list (str * V) := fold_left (fun d p => assign (fst p) (snd p) d) pairs [].

(** 636-642, 704-710 *)
Definition skip_some (s : str) : str :=
  match s with c :: r => if is_ws c then match r with d :: r' => if is_ws d then w r' else r | [] => [] end else s | [] => [] end.
(** 646-647, 692-693, 748-749 *)
Definition expecting_value {A} (r : jres A) : jres A := match r with JStop => JBad | _ => r end.

(** 427-468 _scan_once; 586-675 JSONObject; 678-712 JSONArray *)
Fixpoint scan_once (fuel : nat) (strict : bool) (s : str) : jres (val F * str) :=
  match fuel with
  | O => JFuel
  | S fuel =>
      match s with
      | [] => JStop
      | nextchar :: r =>
          if nextchar =? 34 then jbind (parse_string strict r) (fun '(t, s) => JOk (JStr t, s))
          else if nextchar =? 123 then
            (* 605-624 *)
            let s := match r with c :: _ => if negb (c =? 34) && is_ws c then w r else r | [] => w r end in
            match s with
            | c :: s' => if c =? 125 then JOk (JDict [], s')
                         else if negb (c =? 34) then JBad
                         else object_loop fuel strict s' []
            | [] => JBad
            end
          else if nextchar =? 91 then
            (* 681-687 *)
            let s := match r with c :: r' => if is_ws c then w r' else r | [] => [] end in
            match s with
            | c :: s' => if c =? 93 then JOk (JList [], s') else array_loop fuel strict s []
            | [] => array_loop fuel strict s []
            end
          else match after [110; 117; 108; 108] s with
          | Some s => JOk (JNull, s)
          | None => match after [116; 114; 117; 101] s with
          | Some s => JOk (JBool true, s)
          | None => match after [102; 97; 108; 115; 101] s with
          | Some s => JOk (JBool false, s)
          | None => match match_number s with
          | Some (integer, [], [], s) => jbind (of_res (parse_int integer)) (fun z => JOk (JInt z, s))
          | Some (integer, frac, exp, s) => jbind (of_res (parse_float (integer ++ frac ++ exp))) (fun f => JOk (JFloat f, s))
          | None => match after [78; 97; 78] s with
          | Some s => JOk (JFloat nan, s)
          | None => match after [73; 110; 102; 105; 110; 105; 116; 121] s with
          | Some s => JOk (JFloat inf, s)
          | None => match after [45; 73; 110; 102; 105; 110; 105; 116; 121] s with
          | Some s => JOk (JFloat neginf, s)
          | None => JStop
          end end end end end end end
      end
  end
(** 625-668; [s] is the text after the opening quote of the key *)
with object_loop (fuel : nat) (strict : bool) (s : str) (pairs : list (str * val F)) : jres (val F * str) :=
  match fuel with
  | O => JFuel
  | S fuel =>
      jbind (parse_string strict s) (fun '(k, s) =>
        let s := match s with c :: _ => if negb (c =? 58) then w s else s | [] => [] end in
        match s with
        | [] => JBad
        | c :: s =>
            if negb (c =? 58) then JBad
            else jbind (expecting_value (scan_once fuel strict (skip_some s))) (fun '(v, s) =>
              let pairs := pairs ++ [(k, v)] in
              let s := match s with c :: r => if is_ws c then w r else s | [] => [] end in
              match s with
              | [] => JBad
              | c :: s =>
                  if c =? 125 then JOk (JDict (dict_of pairs), s)
                  else if negb (c =? 44) then JBad
                  else match w s with
                       | [] => JBad
                       | c :: s => if negb (c =? 34) then JBad else object_loop fuel strict s pairs
                       end
              end)
        end)
  end
(** 689-710 *)
with array_loop (fuel : nat) (strict : bool) (s : str) (values : list (val F)) : jres (val F * str) :=
  match fuel with
  | O => JFuel
  | S fuel =>
      jbind (expecting_value (scan_once fuel strict s)) (fun '(v, s) =>
        let values := values ++ [v] in
        let s := match s with c :: r => if is_ws c then w r else s | [] => [] end in
        match s with
        | [] => JBad
        | c :: s =>
            if c =? 93 then JOk (JList values, s)
            else if negb (c =? 44) then JBad
            else array_loop fuel strict (skip_some s) values
        end)
  end.

(** 738-750 decode, raw_decode *)
Definition decode (strict : bool) (s : str) : jres (val F) :=
  jbind (expecting_value (scan_once (2 * length s + 2) strict (w s))) (fun '(v, s) =>
    match w s with [] => JOk v | _ => JBad end).
(** 927-929, 938-960 *)
Definition loads (strict : bool) (s : str) : jres (val F) :=
  match s with c :: _ => if c =? 65279 then JBad else decode strict s | [] => decode strict s end.

(** 863-890 detect_encoding *)
Inductive enc := utf_8 | utf_8_sig | utf_16 | utf_16_le | utf_16_be | utf_32 | utf_32_le | utf_32_be.
Definition starts (p b : list Z) : bool := match after p b with Some _ => true | None => false end.
Definition detect_encoding (b : list Z) : enc :=
  if starts [0; 0; 254; 255] b || starts [255; 254; 0; 0] b then utf_32
  else if starts [254; 255] b || starts [255; 254] b then utf_16
  else if starts [239; 187; 191] b then utf_8_sig
  else match b with
       | b0 :: b1 :: b2 :: b3 :: _ =>
           if b0 =? 0 then (if negb (b1 =? 0) then utf_16_be else utf_32_be)
           else if b1 =? 0 then (if negb (b2 =? 0) || negb (b3 =? 0) then utf_16_le else utf_32_le)
           else utf_8
       | [b0; b1] => if b0 =? 0 then utf_16_be else if b1 =? 0 then utf_16_le else utf_8
       | _ => utf_8
       end.
(** 930-960: [decode_bytes] is bytes.decode(encoding, "surrogatepass") *)
Variable decode_bytes : enc -> list Z -> res str.
Definition loads_bytes (strict : bool) (b : list Z) : jres (val F) :=
  jbind (of_res (decode_bytes (detect_encoding b) b)) (decode strict).
End Json.
