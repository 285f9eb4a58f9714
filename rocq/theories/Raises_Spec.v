(** Docstrings by lines, and the exceptions they name. *)
From Coq Require Import ZArith List Bool.
Import ListNotations.
Open Scope Z_scope.

Section S.
Variables (space word : Z -> bool).
Definition colon : Z := 58.
Definition comma : Z := 44.
Definition hash : Z := 35.
Definition newline : Z := 10.
Definition raises : list Z := [114; 97; 105; 115; 101; 115].

Inductive line :=
| Blank (blanks : list Z)
| Prose (blanks : list Z) (t : list Z)                     (* another text *)
| Sentence (blanks gap t : list Z)                         (* raises, but not as a declaration: "raises the level" *)
| Field (blanks gap name description : list Z)             (* :raises NAME: description *)
| Listing (blanks : list Z) (colon_first : bool) (gap : list Z) (names : list (list Z)) (comment : option (list Z)).
                                                           (* raises: NAME, NAME  # comment *)
Fixpoint commas (l : list (list Z)) : list Z :=
  match l with [] => [] | [x] => x | x :: l => x ++ comma :: commas l end.
Definition render (l : line) : list Z :=
  match l with
  | Blank b => b
  | Prose b t => b ++ t
  | Sentence b g t => b ++ raises ++ g ++ t
  | Field b g n d => b ++ colon :: raises ++ g ++ n ++ colon :: d
  | Listing b c g ns cm => b ++ (if c : bool then [colon] else []) ++ raises ++ g ++ colon :: commas ns ++
      match cm with Some t => hash :: t | None => [] end
  end.
Definition names_of (l : line) : list (list Z) :=
  match l with Field _ _ n _ => [n] | Listing _ _ _ ns _ => ns | _ => [] end.

Definition blank (t : list Z) : Prop := forall c, In c t -> space c = true /\ c <> newline.
Definition one_line (t : list Z) : Prop := ~ In newline t.
Definition starts_with (p t : list Z) : Prop := exists r, t = p ++ r.
Definition well_formed (l : line) : Prop :=
  match l with
  | Blank b => blank b
  | Prose b t => blank b /\ one_line t /\ (exists c r, t = c :: r /\ space c = false) /\
      ~ starts_with raises t /\ ~ starts_with (colon :: raises) t
  | Sentence b g t => blank b /\ blank g /\ one_line t /\ (exists c r, t = c :: r /\ space c = false /\ c <> colon)
  | Field b g n d => blank b /\ blank g /\ g <> [] /\ n <> [] /\
      (forall c, In c n -> (word c = true \/ c = 46) /\ space c = false /\ c <> colon /\ c <> newline) /\ one_line d
  | Listing b _ g ns cm => blank b /\ blank g /\ commas ns <> [] /\
      (forall n c, In n ns -> In c n -> c <> comma /\ c <> hash /\ c <> newline /\ c <> 13) /\ ns <> [] /\
      match cm with Some t => one_line t | None => True end
  end.
Fixpoint document (l : list line) : list Z :=
  match l with [] => [] | [x] => render x | x :: l => render x ++ newline :: document l end.
End S.
