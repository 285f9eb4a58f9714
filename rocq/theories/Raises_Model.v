(** Model of the declared exceptions: crosshair/condition_parser.py parse_sphinx_raises 642-662 with its pattern
    _RAISE_SPHINX_RE 633-639 (MULTILINE: "^" matches at the start and after each newline).  Characters are code
    points.  Repetitions in the pattern are followed by characters they cannot match, so that the longest run is
    the only one. *)
From Coq Require Import ZArith List Bool.
Import ListNotations.
Open Scope Z_scope.

Definition str := list Z.
Definition COLON := 58.
Definition NEWLINE := 10.
Definition RAISES : str := [114; 97; 105; 115; 101; 115].

Fixpoint span (f : Z -> bool) (s : str) : str * str :=
  match s with
  | [] => ([], [])
  | c :: r => if f c then let (a, b) := span f r in (c :: a, b) else ([], s)
  end.
Fixpoint after (p s : str) : option str :=
  match p, s with
  | [], _ => Some s
  | a :: p, b :: s => if a =? b then after p s else None
  | _, [] => None
  end.
(** str.split(",") *)
Fixpoint split_commas (s : str) : list str :=
  match s with
  | [] => [[]]
  | c :: r => match split_commas r with
              | [] => []
              | x :: xs => if c =? 44 then [] :: x :: xs else (c :: x) :: xs
              end
  end.

Section R.
Variables (space word : Z -> bool).   (* \s and \w *)

(** 635: a colon, raises, blanks, a name, a colon; the names and what follows the match *)
Definition first_form (s : str) : option (list str * str) :=
  match after (COLON :: RAISES) s with
  | None => None
  | Some r =>
      match span space r with
      | ([], _) => None
      | (_ :: _, r) =>
          match span (fun c => word c || (c =? 46)) r with
          | (c :: name, c2 :: r) => if c2 =? COLON then Some ([c :: name], r) else None
          | _ => None
          end
      end
  end.
(** 636 *)
Definition second_form (s : str) : option (list str * str) :=
  let s := match s with c :: r => if c =? COLON then r else s | [] => s end in
  match after RAISES s with
  | None => None
  | Some r =>
      match snd (span space r) with
      | c :: r => if c =? COLON then
          match span (fun c => negb ((c =? 13) || (c =? 10) || (c =? 35))) r with
          | ([], _) => None
          | (l, r) => Some (split_commas l, r)
          end else None
      | [] => None
      end
  end.
Definition attempt (s : str) : option (list str * str) :=
  let r := snd (span space s) in
  match first_form r with Some x => Some x | None => second_form r end.
(** 647 findall: [skip] characters belong to the last match; [bol]: at the start of a line *)
Fixpoint scan (skip : nat) (bol : bool) (s : str) : list str :=
  match s with
  | [] => []
  | c :: r =>
      match skip with
      | S k => scan k (c =? NEWLINE) r
      | O =>
          match (if bol then attempt s else None) with
          | Some (names, rest) => names ++ scan (length r - length rest) (c =? NEWLINE) r
          | None => scan O (c =? NEWLINE) r
          end
      end
  end.
Definition named (doc : str) : list str := scan O true doc.

(** 652-661: the texts are evaluated with the globals of the function; what fails or is no exception class is
    left out *)
Variable E : Type.
Variable eval : str -> option E.
Fixpoint classes (l : list str) : list E :=
  match l with [] => [] | n :: l => match eval n with Some e => e :: classes l | None => classes l end end.
(** 644-646: without a docstring nothing is declared *)
Definition declared (doc : option str) : list E := match doc with None => [] | Some d => classes (named d) end.
End R.
