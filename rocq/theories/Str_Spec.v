(** What Python's str methods compute (library reference and CPython's
    Objects/stringlib), stated in terms of concatenation and occurrences. *)
From Coq Require Import ZArith List Bool.
From Verif Require Import Py.
Import ListNotations.
Open Scope Z_scope.

Definition len (s : list Z) : Z := Z.of_nat (length s).
(** [sub] occurs in [s] at position [i] *)
Definition occurs (s sub : list Z) (i : Z) : Prop := exists p q, s = p ++ sub ++ q /\ len p = i.

(** The window [s[a:b]] a search is restricted to: a negative bound counts from the
    end and stops at 0; the end stops at len(s), the start is not clipped there. *)
Definition win_start (n : Z) (a : option Z) : Z :=
  match a with None => 0 | Some a => if a <? 0 then Z.max 0 (a + n) else a end.
Definition win_end (n : Z) (b : option Z) : Z :=
  match b with None => n | Some b => if b <? 0 then Z.max 0 (b + n) else Z.min b n end.
Definition occurs_in (s sub : list Z) (a b i : Z) : Prop := occurs s sub i /\ a <= i /\ i + len sub <= b.

(** str.find, str.rfind: lowest (highest) position in the window, or -1 *)
Definition is_find (s sub : list Z) (a b r : Z) : Prop :=
  (occurs_in s sub a b r /\ forall j, occurs_in s sub a b j -> r <= j)
  \/ (r = -1 /\ forall j, ~ occurs_in s sub a b j).
Definition is_rfind (s sub : list Z) (a b r : Z) : Prop :=
  (occurs_in s sub a b r /\ forall j, occurs_in s sub a b j -> j <= r)
  \/ (r = -1 /\ forall j, ~ occurs_in s sub a b j).
(** str.index, str.rindex: the same, or ValueError *)
Definition is_index (P : Z -> Prop) (r : res Z) : Prop :=
  match r with Ok i => i <> -1 /\ P i | Err e => e = ValueError /\ P (-1) end.

(** Occurrences in the window that do not overlap, in increasing order *)
Fixpoint apart (s sub : list Z) (a b : Z) (l : list Z) : Prop :=
  match l with
  | [] => True
  | i :: r => occurs_in s sub a b i /\ apart s sub (i + len sub) b r
  end.
(** str.count: the most non-overlapping occurrences; the empty string is found
    between any two characters and at both ends *)
Definition is_count (s sub : list Z) (a b n : Z) : Prop :=
  if len sub =? 0 then n = Z.max 0 (b - a + 1)
  else (exists l, apart s sub a b l /\ Z.of_nat (length l) = n)
       /\ forall l, apart s sub a b l -> Z.of_nat (length l) <= n.

(** First and last occurrence of a separator *)
Definition first_occ (s sep p q : list Z) : Prop :=
  s = p ++ sep ++ q /\ forall p' q', s = p' ++ sep ++ q' -> (length p <= length p')%nat.
Definition last_occ (s sep p q : list Z) : Prop :=
  s = p ++ sep ++ q /\ forall p' q', s = p' ++ sep ++ q' -> (length p' <= length p)%nat.
Definition absent (s sep : list Z) : Prop := forall p q, s <> p ++ sep ++ q.

Fixpoint join (sep : list Z) (l : list (list Z)) : list Z :=
  match l with
  | [] => []
  | [x] => x
  | x :: r => x ++ sep ++ join sep r
  end.

(** str.split(sep, n): cut at the leftmost separator, at most n times (n < 0: no limit) *)
Inductive splits (sep : list Z) : Z -> list Z -> list (list Z) -> Prop :=
| sp_limit s : splits sep 0 s [s]
| sp_absent n s : absent s sep -> splits sep n s [s]
| sp_cut n s p q l : n <> 0 -> first_occ s sep p q -> splits sep (n - 1) q l -> splits sep n s (p :: l).
(** str.rsplit(sep, n): cut at the rightmost separator *)
Inductive rsplits (sep : list Z) : Z -> list Z -> list (list Z) -> Prop :=
| rs_limit s : rsplits sep 0 s [s]
| rs_absent n s : absent s sep -> rsplits sep n s [s]
| rs_cut n s p q l : n <> 0 -> last_occ s sep p q -> rsplits sep (n - 1) p l -> rsplits sep n s (l ++ [q]).

(** str.replace(old, new, n): separators become [new]; an empty [old] is found before
    every character and at the end *)
Fixpoint interleave (new : list Z) (n : Z) (s : list Z) : list Z :=
  if n =? 0 then s
  else match s with
       | [] => new
       | c :: r => new ++ c :: interleave new (n - 1) r
       end.
Definition is_replace (s old new : list Z) (n : Z) (r : list Z) : Prop :=
  if len old =? 0 then r = interleave new n s
  else exists l, splits old n s l /\ r = join new l.

(** Characters removed at either end, and what remains *)
Definition all_ (f : Z -> bool) (s : list Z) : Prop := Forall (fun c => f c = true) s.
Definition head_not (f : Z -> bool) (s : list Z) : Prop := match s with [] => True | c :: _ => f c = false end.
Definition last_not (f : Z -> bool) (s : list Z) : Prop := s = [] \/ exists t c, s = t ++ [c] /\ f c = false.
Definition is_lstrip f s r : Prop := exists w, s = w ++ r /\ all_ f w /\ head_not f r.
Definition is_rstrip f s r : Prop := exists w, s = r ++ w /\ all_ f w /\ last_not f r.
Definition is_strip f s r : Prop :=
  exists v w, s = v ++ r ++ w /\ all_ f v /\ all_ f w /\ head_not f r /\ last_not f r.

(** str.split(None, n): fields separated by runs of whitespace; after n of them, the
    rest of the string from its first non-space character *)
Inductive fields (f : Z -> bool) : Z -> list Z -> list (list Z) -> Prop :=
| fi_none n s : all_ f s -> fields f n s []
| fi_rest w r : all_ f w -> r <> [] -> head_not f r -> fields f 0 (w ++ r) [r]
| fi_word n w t r l : n <> 0 -> all_ f w -> t <> [] -> all_ (fun c => negb (f c)) t ->
    (r = [] \/ exists c r', r = c :: r' /\ f c = true) ->
    fields f (n - 1) r l -> fields f n (w ++ t ++ r) (t :: l).
(** str.rsplit(None, n): the mirror image *)
Definition rfields f n s l : Prop := fields f n (rev s) (rev (map (@rev Z) l)).

(** str.splitlines: [e] ends a line; "\r\n" counts as one *)
Definition line_end (isnl : Z -> bool) (e q : list Z) : Prop :=
  e = [13; 10] \/ exists c, e = [c] /\ isnl c = true /\ ~ (c = 13 /\ exists q', q = 10 :: q').
Inductive lines (isnl : Z -> bool) (keepends : bool) : list Z -> list (list Z) -> Prop :=
| ln_nil : lines isnl keepends [] []
| ln_last s : s <> [] -> all_ (fun c => negb (isnl c)) s -> lines isnl keepends s [s]
| ln_cut p e q l : all_ (fun c => negb (isnl c)) p -> line_end isnl e q -> lines isnl keepends q l ->
    lines isnl keepends (p ++ e ++ q) ((if keepends then p ++ e else p) :: l).

(** Padding *)
Definition fill (c n : Z) : list Z := repeat c (Z.to_nat n).
Definition py_ljust s w c := s ++ fill c (w - len s).
Definition py_rjust s w c := fill c (w - len s) ++ s.
(** CPython puts the odd character on the left when the width is odd *)
Definition py_center s w c :=
  let marg := Z.max 0 (w - len s) in
  let left := marg / 2 + Z.land marg (Z.land w 1) in
  fill c left ++ s ++ fill c (marg - left).
Definition py_zfill s w :=
  let zeros := fill 48 (w - len s) in
  match s with
  | c :: r => if (c =? 43) || (c =? 45) then c :: zeros ++ r else zeros ++ s
  | [] => zeros
  end.
(** A tab advances to the next column that is a multiple of the tab size *)
Fixpoint expand (tabsize col : Z) (s : list Z) : list Z :=
  match s with
  | [] => []
  | c :: r =>
      if c =? 9 then
        let incr := if 0 <? tabsize then tabsize - col mod tabsize else 0 in
        fill 32 incr ++ expand tabsize (col + incr) r
      else c :: expand tabsize (if (c =? 10) || (c =? 13) then 0 else col + 1) r
  end.

(** Lexicographic order *)
Definition lex_lt (a b : list Z) : Prop :=
  exists p, (exists y b', a = p /\ b = p ++ y :: b')
            \/ (exists x y a' b', a = p ++ x :: a' /\ b = p ++ y :: b' /\ x < y).
