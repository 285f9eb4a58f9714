(** What CPython's io.StringIO does (Modules/_io/stringio.c): a buffer, a position that
    may lie beyond its end, and the newlines seen. *)
From Coq Require Import List Bool ZArith.
From Verif Require Import Py StringIO_Model.
Import ListNotations.
Open Scope Z_scope.

Definition blen (s : list Z) : Z := Z.of_nat (length s).

(** Universal newlines: \r\n, \r and \n all become \n ... *)
Fixpoint universal (s : list Z) : list Z :=
  match s with
  | [] => []
  | c :: r => if c =? 13 then
                10 :: match r with d :: r' => if d =? 10 then universal r' else universal r | [] => [] end
              else c :: universal r
  end.
(** ... and are remembered. *)
Fixpoint newlines_in (s : list Z) : list (list Z) :=
  match s with
  | [] => []
  | c :: r => if c =? 13 then
                match r with
                | d :: r' => if d =? 10 then [13; 10] :: newlines_in r' else [13] :: newlines_in r
                | [] => [[13]]
                end
              else if c =? 10 then [10] :: newlines_in r else newlines_in r
  end.
Definition line_end (md : mode) : list Z := match md with MCr => [13] | MCrLf => [13; 10] | _ => [10] end.
(** what a written string becomes *)
Definition translated (md : mode) (s : list Z) : list Z :=
  match md with
  | MNone => universal s
  | MEmpty | MLf => s
  | MCr | MCrLf => flat_map (fun c => if c =? 10 then line_end md else [c]) s
  end.
Definition seen_by (md : mode) (s : list Z) : list (list Z) :=
  match md with MNone | MEmpty => newlines_in s | _ => [] end.

Fixpoint starts (p s : list Z) : bool :=
  match p, s with
  | [], _ => true
  | a :: p, b :: s => (a =? b) && starts p s
  | _, [] => false
  end.
(** The first line of a text, with its end *)
Fixpoint line_to (nl s : list Z) : list Z :=
  match s with
  | [] => []
  | c :: r => if starts nl s then nl else c :: line_to nl r
  end.
Fixpoint line_any (s : list Z) : list Z :=
  match s with
  | [] => []
  | c :: r => if c =? 10 then [10]
              else if c =? 13 then (match r with d :: _ => if d =? 10 then [13; 10] else [13] | [] => [13] end)
              else c :: line_any r
  end.
Definition line (md : mode) (s : list Z) : list Z :=
  match md with MEmpty => line_any s | _ => line_to (line_end md) s end.

Section S.
Variable md : mode.
Record file := mkFile { buffer : list Z; position : Z; seen : list (list Z); shut : bool }.
Definition moved (f : file) (p : Z) : file := mkFile (buffer f) p (seen f) (shut f).
(** at most [n] characters from the position, all if there is no limit *)
Definition upto (f : file) (n : option Z) : list Z :=
  let rest := skipn (Z.to_nat (position f)) (buffer f) in
  match n with Some n => if n <? 0 then rest else firstn (Z.to_nat n) rest | None => rest end.
(** [t] overwrites what is at position [p]; a gap is filled with null characters *)
Definition overwrite (b : list Z) (p : Z) (t : list Z) : list Z :=
  firstn (Z.to_nat p) b ++ repeat 0 (Z.to_nat p - length b) ++ t ++ skipn (Z.to_nat (p + blen t)) b.

Definition names (l : list (list Z)) : list (list Z) :=
  filter (fun nl => existsb (fun x => if list_eq_dec Z.eq_dec nl x then true else false) l) [[13]; [10]; [13; 10]].
Definition created (initial : list Z) : file := mkFile (translated md initial) 0 (seen_by md initial) false.

Definition does (f : file) (o : op) : res (out * file) :=
  match o with
  | Close => Ok (ONone, mkFile (buffer f) (position f) (seen f) true)
  | _ =>
    if shut f then Err ValueError
    else match o with
    | Close => Ok (ONone, f)
    | Read n => let r := upto f n in Ok (OStr r, moved f (position f + blen r))
    | Readline n => let r := line md (upto f n) in Ok (OStr r, moved f (position f + blen r))
    | Write s =>
        match s with
        | [] => Ok (OInt 0, f)
        | _ => let t := translated md s in
               Ok (OInt (blen s), mkFile (overwrite (buffer f) (position f) t) (position f + blen t)
                                         (seen f ++ seen_by md s) false)
        end
    | Seek n w =>
        if w =? 0 then if n <? 0 then Err ValueError else Ok (OInt n, moved f n)
        else if (w =? 1) || (w =? 2) then
          if n =? 0 then let p := if w =? 1 then position f else blen (buffer f) in Ok (OInt p, moved f p)
          else Err OSError
        else Err ValueError
    | Tell => Ok (OInt (position f), f)
    | Truncate n =>
        let n := match n with Some n => n | None => position f end in
        if n <? 0 then Err ValueError
        else Ok (OInt n, mkFile (firstn (Z.to_nat n) (buffer f)) (position f) (seen f) false)
    | Getvalue => Ok (OStr (buffer f), f)
    | Newlines => Ok (ONames (names (seen f)), f)
    end
  end.
Fixpoint history (f : file) (os : list op) : list (res out) :=
  match os with
  | [] => []
  | o :: os => match does f o with
               | Ok (r, f') => Ok r :: history f' os
               | Err e => Err e :: history f os
               end
  end.
End S.
