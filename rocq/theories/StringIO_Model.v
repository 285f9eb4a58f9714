(** Model of in-memory text files: crosshair/libimpl/iolib.py BackedStringIO 13-201.
    Strings are lists of code points; they are sliced, searched and replaced as in
    Str_Model.  Arguments have their expected types. *)
From Coq Require Import List Bool ZArith.
From Verif Require Import Py Str_Model Regex_Model Regex_Spec.
Import ListNotations.
Open Scope Z_scope.

(** the newline argument: None, "", "\n", "\r", "\r\n" *)
Inductive mode := MNone | MEmpty | MLf | MCr | MCrLf.

(** 10: _UNIVERSAL_NEWLINE_RE = (\r\n|\r|\n).  Its methods are those of Regex_Spec; see
    the theorem newline_sub_symbolic on what they are for symbolic strings. *)
Definition newline_re : list (node Z) := [NGroup 1 [NBranch [[NChar 13; NChar 10]; [NChar 13]; [NChar 10]]]].
Definition no_word (c : Z) : bool := false.
Definition re_sub (repl s : list Z) : list Z := fst (subn Z Z.eqb no_word false s (fun _ => repl) newline_re 0).
Definition re_matches (s : list Z) (pos : Z) : list (Z * way) := finditer Z Z.eqb no_word false s newline_re pos.
Definition re_texts (s : list Z) : list (list Z) :=
  map (fun m => match group_text s m 1 with Some t => t | None => [] end) (re_matches s 0).

Record sio := mkSio { contents : list Z; pos : Z; discovered : list (list Z); closed : bool }.

Section M.
Variable md : mode.

(** 78-93 _replace_newlines, and the newlines it discovers *)
Definition replace_newlines (s : list Z) (seen : list (list Z)) : res (list Z * list (list Z)) :=
  match md with
  | MNone => Ok (re_sub [10] s, seen ++ re_texts s)
  | MEmpty => Ok (s, seen ++ re_texts s)
  | MLf => Ok (s, seen)
  | MCr => do r <- m_replace s [10] [13] (-1); Ok (r, seen)
  | MCrLf => do r <- m_replace s [10] [13; 10] (-1); Ok (r, seen)
  end.

(** 20-39 __init__ *)
Definition init (initial : list Z) (p : Z) : res sio :=
  if p <? 0 then Err ValueError
  else match initial with
       | [] => Ok (mkSio [] p [] false)
       | _ => do r <- replace_newlines initial []; Ok (mkSio (fst r) p (snd r) false)
       end.

Definition nl_text : list Z := match md with MCr => [13] | MCrLf => [13; 10] | _ => [10] end.
Definition eqs (a b : list Z) : bool := if list_eq_dec Z.eq_dec a b then true else false.

Inductive op :=
| Read (amount : option Z) | Readline (limit : option Z) | Write (s : list Z)
| Seek (amount whence : Z) | Tell | Truncate (size : option Z)
| Getvalue | Newlines | Close.
Inductive out := OStr (s : list Z) | OInt (n : Z) | ONone | ONames (l : list (list Z)).

Definition at_pos (f : sio) (p : Z) : sio := mkSio (contents f) p (discovered f) (closed f).

Definition m_read (f : sio) (amount : option Z) : res (out * sio) :=            (* 101-109 *)
  let ret := match amount with
             | None => sslice (contents f) (Some (pos f)) None
             | Some n => sslice (contents f) (Some (pos f)) (Some (pos f + n))
             end in
  Ok (OStr ret, at_pos f (pos f + slen ret)).
Definition m_readline (f : sio) (limit : option Z) : res (out * sio) :=         (* 116-138 *)
  let c := contents f in let p := pos f in
  let limit := match limit with None => slen c | Some l => l end in
  let all := (OStr (sslice c (Some p) (Some limit)), at_pos f limit) in
  match md with
  | MEmpty => match re_matches (sslice c None (Some limit)) p with
              | m :: _ => Ok (OStr (sslice c (Some p) (Some (fst (snd m)))), at_pos f (fst (snd m)))
              | [] => Ok all
              end
  | _ => let idx := m_find c nl_text (Some p) (Some limit) in
         if idx =? -1 then Ok all
         else Ok (OStr (sslice c (Some p) (Some (idx + slen nl_text))), at_pos f (idx + slen nl_text))
  end.
Definition m_write (f : sio) (s : list Z) : res (out * sio) :=                  (* 140-158 *)
  let c := contents f in let p := pos f in
  match s with
  | [] => Ok (OInt 0, f)
  | _ =>
      do r <- replace_newlines s (discovered f);
      let (writestr, seen) := r in
      let writelen := slen writestr in
      let padded := if p >? slen c then c ++ srepeat [0] (p - slen c) else c in
      let contentslen := if p >? slen c then p else slen c in
      let new := if p =? contentslen then padded ++ writestr
                 else sslice c None (Some p) ++ writestr ++ sslice c (Some (p + writelen)) None in
      Ok (OInt (slen s), mkSio new (p + writelen) seen (closed f))
  end.
Definition m_seek (f : sio) (amount whence : Z) : res (out * sio) :=            (* 160-178 *)
  if whence =? 1 then
    if negb (amount =? 0) then Err OSError else Ok (OInt (pos f + amount), at_pos f (pos f + amount))
  else if whence =? 2 then
    if negb (amount =? 0) then Err OSError
    else Ok (OInt (slen (contents f) + amount), at_pos f (slen (contents f) + amount))
  else if whence =? 0 then
    if amount <? 0 then Err ValueError else Ok (OInt amount, at_pos f amount)
  else Err ValueError.
Definition m_truncate (f : sio) (size : option Z) : res (out * sio) :=          (* 190-196 *)
  let size := match size with None => pos f | Some n => n end in
  Ok (OInt size, mkSio (sslice (contents f) None (Some size)) (pos f) (discovered f) (closed f)).
(** 68-76 newlines: a string, a tuple or None, here a list *)
Definition m_newlines (f : sio) : list (list Z) :=
  filter (fun nl => existsb (eqs nl) (discovered f)) [[13]; [10]; [13; 10]].

(** A method call.  getvalue (98-99) and newlines do not look at closed. *)
Definition call (f : sio) (o : op) : res (out * sio) :=
  let checked (r : res (out * sio)) := if closed f then Err ValueError else r in
  match o with
  | Read n => checked (m_read f n)
  | Readline l => checked (m_readline f l)
  | Write s => checked (m_write f s)
  | Seek n w => checked (m_seek f n w)
  | Tell => checked (Ok (OInt (pos f), f))                                      (* 185-188 *)
  | Truncate n => checked (m_truncate f n)
  | Getvalue => Ok (OStr (contents f), f)
  | Newlines => Ok (ONames (m_newlines f), f)
  | Close => Ok (ONone, mkSio (contents f) (pos f) (discovered f) true)         (* IOBase.close *)
  end.
(** The results of a sequence of calls; one that raises leaves the file as it is. *)
Fixpoint calls (f : sio) (os : list op) : list (res out) :=
  match os with
  | [] => []
  | o :: os => match call f o with
               | Ok (r, f') => Ok r :: calls f' os
               | Err e => Err e :: calls f os
               end
  end.
End M.
