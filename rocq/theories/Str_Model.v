(** Model of the string algorithms shared by symbolic str and bytes: crosshair/
    abcstring.py (38-51, 127-399) and crosshair/libimpl/builtinslib.py AnySymbolicStr
    (3348-3852), split helpers (3261-3324), _join (5245-5258), _str_contains
    (5341-5362).

    A string is the list of its code points (or byte values).  Operands of a wrong
    type (TypeError) are not modelled.  Slicing s[a:b] is Python's slicing (the lazy
    sequences behind it are proved to slice that way in C11). *)
From Coq Require Import ZArith List Bool.
From Verif Require Import Py Range_Spec PySeq_Spec.
Import ListNotations.
Open Scope Z_scope.

Definition str := list Z.
Definition slen (s : str) : Z := Z.of_nat (length s).
(** s[a:b] *)
Definition sslice (s : str) (a b : option Z) : str :=
  match py_slice s (mkSl a b None) with Ok r => r | Err _ => [] end.
(** s * n (3981-3988): repeated concatenation *)
Definition srepeat (s : str) (n : Z) : str := concat (repeat s (Z.to_nat n)).

(** [all(a == b for a, b in zip(x, y))] *)
Definition zip_eq (x y : str) : bool := forallb (fun '(a, b) => a =? b) (combine x y).
Definition match_at (points : str) (i : Z) (subpoints : str) : bool :=
  zip_eq (sslice points (Some i) (Some (i + slen subpoints))) subpoints.

(** abcstring.py 38-51 *)
Definition unfindable_range (start end_ : option Z) (mylen : Z) : bool :=
  match start with
  | None => false
  | Some start =>
      if (start =? 0) || (start <=? - mylen) then false
      else match end_ with
           | None => mylen <? start
           | Some e => if mylen <=? e then mylen <? start
                       else let start := if start <? 0 then start + mylen else start in
                            let e := if e <? 0 then e + mylen else e in
                            e <? start
           end
  end.

Fixpoint first_match (points sub : str) (start : Z) (positions : list Z) : Z :=
  match positions with
  | [] => -1
  | i :: r => if match_at points i sub then start + i else first_match points sub start r
  end.

(** abcstring.py 185-213 _find *)
Definition find_ (self sub : str) (start end_ : option Z) (from_right : bool) : Z :=
  let mylen := slen self in
  let start := match start with None => 0 | Some s => if s <? 0 then s + mylen else s end in
  let e := match end_ with None => mylen | Some e => if e <? 0 then e + mylen else e end in
  let matchable := if negb (start =? 0) || negb (e =? mylen) then sslice self (Some start) (Some e) else self in
  if slen sub =? 0 then
    if (slen matchable =? 0) && (Z.min mylen (Z.max e 0) <? start) then -1
    else if from_right then Z.max (Z.min e mylen) 0 else Z.max start 0
  else
    let span := slen matchable - slen sub in
    let positions := if from_right then py_range span (-1) (-1) else py_range 0 (span + 1) 1 in
    first_match matchable sub start positions.
Definition m_find self sub start end_ := find_ self sub start end_ false.
Definition m_rfind self sub start end_ := find_ self sub start end_ true.
(** 224-228, 315-319 *)
Definition m_index self sub start end_ : res Z :=
  let idx := m_find self sub start end_ in if idx =? -1 then Err ValueError else Ok idx.
Definition m_rindex self sub start end_ : res Z :=
  let idx := m_rfind self sub start end_ in if idx =? -1 then Err ValueError else Ok idx.

(** 127-138 count *)
Fixpoint count_loop (fuel : nat) (sliced sub : str) (total pos : Z) : res Z :=
  match fuel with
  | O => Err OutOfFuel
  | S f => let idx := m_find sliced sub (Some pos) None in
           if idx =? -1 then Ok total else count_loop f sliced sub (total + 1) (idx + slen sub)
  end.
Definition m_count (self sub : str) (start end_ : option Z) : res Z :=
  let sliced := sslice self start end_ in
  if slen sub =? 0 then Ok (slen sliced + 1)
  else count_loop (S (length sliced)) sliced sub 0 0.

(** 147-158 endswith, 351-366 startswith, with one affix *)
Definition is_none {A} (x : option A) : bool := match x with None => true | _ => false end.
Definition m_endswith1 (self suffix : str) (start end_ : option Z) : bool :=
  let matchable := if is_none start && is_none end_ then self else sslice self start end_ in
  if slen suffix =? 0 then negb (unfindable_range start end_ (slen self))
  else if slen matchable <? slen suffix then false
  else zip_eq (sslice matchable (Some (- slen suffix)) None) suffix.
Definition m_startswith1 (self prefix : str) (start end_ : option Z) : bool :=
  let body (matchable : str) :=
    if slen matchable <? slen prefix then false
    else zip_eq (sslice matchable None (Some (slen prefix))) prefix in
  if is_none start && is_none end_ then body self
  else if unfindable_range start end_ (slen self) then false
  else body (sslice self start end_).
(** with a tuple of affixes (148-149, 352-353) *)
Definition m_endswith self (suffixes : list str) start end_ : bool :=
  existsb (fun s => m_endswith1 self s start end_) suffixes.
Definition m_startswith self (prefixes : list str) start end_ : bool :=
  existsb (fun p => m_startswith1 self p start end_) prefixes.

(** builtinslib.py 5341-5362 _str_contains *)
Definition m_contains (self other : str) : bool :=
  let num_options := slen self + 1 - slen other in
  existsb (fun i => zip_eq other (sslice self (Some i) (Some (i + slen other)))) (py_range 0 num_options 1).

(** 280-294 partition, 324-337 rpartition *)
Definition cut_at (s sep : str) (start : Z) : str * str * str :=
  (sslice s None (Some start), sep, sslice s (Some (start + slen sep)) None).
Fixpoint first_pos (s sep : str) (positions : list Z) : option Z :=
  match positions with
  | [] => None
  | i :: r => if match_at s i sep then Some i else first_pos s sep r
  end.
Definition m_partition (s sep : str) : res (str * str * str) :=
  if slen sep =? 0 then Err ValueError
  else match first_pos s sep (py_range 0 (1 + slen s - slen sep) 1) with
       | Some start => Ok (cut_at s sep start)
       | None => Ok (s, [], [])
       end.
Definition m_rpartition (s sep : str) : res (str * str * str) :=
  if slen sep =? 0 then Err ValueError
  else match first_pos s sep (py_range (slen s - slen sep) (-1) (-1)) with
       | Some start => Ok (cut_at s sep start)
       | None => Ok ([], [], s)
       end.

(** 296-310 replace *)
Fixpoint replace_ (fuel : nat) (self old new : str) (count : Z) : res str :=
  match fuel with
  | O => Err OutOfFuel
  | S f =>
      if count =? 0 then Ok self
      else if slen self =? 0 then (if slen old =? 0 then Ok new else Ok self)
      else if slen old =? 0 then
        do r <- replace_ f (sslice self (Some 1) None) old new (count - 1);
        Ok (new ++ sslice self None (Some 1) ++ r)
      else
        do t <- m_partition self old;
        let '(prefix, m, suffix) := t in
        if slen m =? 0 then Ok self
        else do r <- replace_ f suffix old new (count - 1); Ok (prefix ++ new ++ r)
  end.
Definition m_replace (self old new : str) (count : Z) : res str :=
  replace_ (S (length self)) self old new count.

(** 388-399 removeprefix, removesuffix *)
Definition m_removeprefix (self p : str) : str :=
  if m_startswith1 self p None None then sslice self (Some (slen p)) None else self.
Definition m_removesuffix (self p : str) : str :=
  if m_endswith1 self p None None then
    (if slen p =? 0 then self else sslice self None (Some (- slen p)))
  else self.

(** builtinslib.py 3717-3736 split, 3677-3696 rsplit, with a separator *)
Fixpoint split_ (fuel : nat) (self sep : str) (maxsplit : Z) : res (list str) :=
  match fuel with
  | O => Err OutOfFuel
  | S f =>
      if slen sep =? 0 then Err ValueError
      else if maxsplit =? 0 then Ok [self]
      else let first := m_find self sep None None in
           if first =? -1 then Ok [self]
           else let new_max := if maxsplit <? 0 then -1 else maxsplit - 1 in
                do r <- split_ f (sslice self (Some (first + slen sep)) None) sep new_max;
                Ok (sslice self None (Some first) :: r)
  end.
Definition m_split (self sep : str) (maxsplit : Z) : res (list str) := split_ (S (length self)) self sep maxsplit.
Fixpoint rsplit_ (fuel : nat) (self sep : str) (maxsplit : Z) : res (list str) :=
  match fuel with
  | O => Err OutOfFuel
  | S f =>
      if slen sep =? 0 then Err ValueError
      else if maxsplit =? 0 then Ok [self]
      else let last := m_rfind self sep None None in
           if last =? -1 then Ok [self]
           else let new_max := if maxsplit <? 0 then -1 else maxsplit - 1 in
                do r <- rsplit_ f (sslice self None (Some last)) sep new_max;
                Ok (r ++ [sslice self (Some (slen sep + last)) None])
  end.
Definition m_rsplit (self sep : str) (maxsplit : Z) : res (list str) := rsplit_ (S (length self)) self sep maxsplit.

(** 5245-5258 _join *)
Fixpoint join_loop (self : str) (result : str) (idx : Z) (items : list str) : str :=
  match items with
  | [] => result
  | item :: r =>
      let result := if 0 <? idx then result ++ self else result in
      join_loop self (result ++ item) (idx + 1) r
  end.
Definition m_join (self : str) (items : list str) : str := join_loop self [] 0 items.

(** *** Padding *)
(** 3412-3427 center, 3565-3572 ljust, 3632-3642 rjust, 3845-3852 zfill *)
Definition m_center (self : str) (width : Z) (fill : Z) : str :=
  let mylen := slen self in
  if width <=? mylen then self
  else
    let remainder := width - mylen in
    let smaller := remainder / 2 in
    let larger := remainder - smaller in
    if width mod 2 =? 1 then srepeat [fill] larger ++ self ++ srepeat [fill] smaller
    else srepeat [fill] smaller ++ self ++ srepeat [fill] larger.
Definition m_ljust (self : str) (width fill : Z) : str := self ++ srepeat [fill] (Z.max 0 (width - slen self)).
Definition m_rjust (self : str) (width fill : Z) : str :=
  if width <=? slen self then self else srepeat [fill] (width - slen self) ++ self.
Definition m_zfill (self : str) (width : Z) : str :=
  let fill_length := Z.max 0 (width - slen self) in
  if m_startswith1 self [43] None None || m_startswith1 self [45] None None then
    sslice self None (Some 1) ++ srepeat [48] fill_length ++ sslice self (Some 1) None
  else srepeat [48] fill_length ++ self.
(** 3431-3434 expandtabs *)
Definition m_expandtabs (self : str) (tabsize : Z) : res str := m_replace self [9] (srepeat [32] tabsize) (-1).

(** *** Stripping: [f] tells the characters to strip *)
(** 3591-3607 lstrip *)
Fixpoint lstrip_loop (f : Z -> bool) (self : str) (idx : Z) (l : str) : str :=
  match l with
  | [] => []
  | ch :: r => if negb (f ch) then sslice self (Some idx) None else lstrip_loop f self (idx + 1) r
  end.
Definition m_lstrip (f : Z -> bool) (self : str) : str := lstrip_loop f self 0 self.
(** 3698-3715 rstrip *)
Fixpoint rstrip_ (fuel : nat) (f : Z -> bool) (self : str) : res str :=
  match fuel with
  | O => Err OutOfFuel
  | S n => if slen self =? 0 then Ok []
           else do ch <- py_getitem self (-1);
                if f ch then rstrip_ n f (sslice self None (Some (-1))) else Ok self
  end.
Definition m_rstrip (f : Z -> bool) (self : str) : res str := rstrip_ (S (length self)) f self.
(** 3738-3739 *)
Definition m_strip (f : Z -> bool) (self : str) : res str := m_rstrip f (m_lstrip f self).

(** *** splitlines 3609-3630; [isnl] is the table of line boundaries *)
Fixpoint lines_scan (isnl : Z -> bool) (self : str) (keepends : bool) (idx : Z) (l : str)
  : res (option (str * str)) :=
  match l with
  | [] => Ok None
  | cp :: r =>
      if negb (isnl cp) then lines_scan isnl self keepends (idx + 1) r
      else
        let plain := Ok (Some (sslice self None (Some (if keepends then idx + 1 else idx)),
                               sslice self (Some (idx + 1)) None)) in
        if cp =? 13 then
          if idx + 1 <? slen self then
            do nxt <- py_getitem self (idx + 1);
            if nxt =? 10 then Ok (Some (sslice self None (Some (if keepends then idx + 2 else idx)),
                                        sslice self (Some (idx + 2)) None))
            else plain
          else plain
        else plain
  end.
Fixpoint splitlines_ (fuel : nat) (isnl : Z -> bool) (self : str) (keepends : bool) : res (list str) :=
  match fuel with
  | O => Err OutOfFuel
  | S n => if slen self =? 0 then Ok []
           else do o <- lines_scan isnl self keepends 0 self;
                match o with
                | None => Ok [self]
                | Some (token, rest) => do r <- splitlines_ n isnl rest keepends; Ok (token :: r)
                end
  end.
Definition m_splitlines isnl (self : str) keepends : res (list str) := splitlines_ (S (length self)) isnl self keepends.

(** *** Splitting on whitespace *)
Section WS.
  Variable isspace : Z -> bool.
  (** the match of \s+ found by [patt.search(string, pos)]: its start and end *)
  Fixpoint run_end (l : str) (i : Z) : Z :=
    match l with [] => i | c :: r => if isspace c then run_end r (i + 1) else i end.
  Fixpoint ws_search (l : str) (i : Z) : option (Z * Z) :=
    match l with
    | [] => None
    | c :: r => if isspace c then Some (i, run_end r (i + 1)) else ws_search r (i + 1)
    end.
  Definition search_from (s : str) (pos : Z) : option (Z * Z) := ws_search (sslice s (Some pos) None) pos.

  (** 3261-3301 split_parts_lazy; maxsplit 0 means unlimited. A match of \s+ is never
      empty, so the zero-width branch does not occur. *)
  Fixpoint parts_loop (fuel : nat) (s : str) (ms : Z) (pos splits : Z) : res (list str) :=
    match fuel with
    | O => Err OutOfFuel
    | S f =>
        if negb (ms =? 0) && (ms <=? splits) then Ok [sslice s (Some pos) None]
        else match search_from s pos with
             | None => Ok [sslice s (Some pos) None]
             | Some (ms_, me) =>
                 let part := sslice s (Some pos) (Some ms_) in
                 if me =? slen s then Ok [part; []]
                 else do r <- parts_loop f s ms me (splits + 1); Ok (part :: r)
             end
    end.
  (** 3644-3662 *)
  Definition m_split_ws (self : str) (maxsplit : Z) : res (list str) :=
    if maxsplit =? 0 then
      let kept := m_lstrip isspace self in
      if slen kept =? 0 then Ok [] else Ok [kept]
    else
      let ms := if maxsplit <? 0 then 0 else maxsplit in
      do stripped <- m_strip isspace self;
      if slen stripped =? 0 then Ok [] else parts_loop (S (length stripped)) stripped ms 0 0.

  (** [list(patt.finditer(string))]: successive searches, each from the last match's end *)
  Fixpoint finditer (fuel : nat) (s : str) (pos : Z) : list (Z * Z) :=
    match fuel with
    | O => []
    | S f => match search_from s pos with
             | None => []
             | Some (a, b) => (a, b) :: finditer f s b
             end
    end.
  (** 3304-3324 rsplit_parts_lazy: [rmatches] are the matches in reverse, [parts] is
      built in reverse *)
  Fixpoint rparts_loop (s : str) (rmatches : list (Z * Z)) (maxsplit e : Z) (parts : list str) : list str :=
    match rmatches with
    | [] => parts ++ [sslice s None (Some e)]
    | (a, b) :: r =>
        if maxsplit <=? 0 then parts ++ [sslice s None (Some e)]
        else rparts_loop s r (maxsplit - 1) a (parts ++ [sslice s (Some b) (Some e)])
    end.
  Definition rsplit_parts (s : str) (maxsplit : Z) : list str :=
    let matches := finditer (length s) s 0 in
    if Nat.eqb (length matches) 0 then [s]
    else rev (rparts_loop s (rev matches) maxsplit (slen s) []).
  (** 3664-3675; sys.maxsize is 2^63 - 1 *)
  Definition m_rsplit_ws (self : str) (maxsplit : Z) : res (list str) :=
    if maxsplit =? 0 then
      do kept <- m_rstrip isspace self;
      if slen kept =? 0 then Ok [] else Ok [kept]
    else
      do stripped <- m_strip isspace self;
      if slen stripped =? 0 then Ok []
      else if maxsplit <? 0 then Ok (rsplit_parts stripped (2 ^ 63 - 1))
      else Ok (rsplit_parts stripped maxsplit).
End WS.

(** *** Comparison 3348-3363 _cmp_op *)
Inductive cop := OLt | OLe | OGt | OGe.
Fixpoint cmp_scan (o : cop) (a b : str) : res bool :=
  let answer (lessthan : bool) := Ok (match o with OLt | OLe => lessthan | _ => negb lessthan end) in
  match a, b with
  | [], [] => Err AssertionError
  | [], _ :: _ => answer true
  | _ :: _, [] => answer false
  | x :: a, y :: b => if x =? y then cmp_scan o a b else answer (x <? y)
  end.
Definition m_cmp (o : cop) (a b : str) : res bool :=
  if list_eqb a b then Ok (match o with OLe | OGe => true | _ => false end) else cmp_scan o a b.
