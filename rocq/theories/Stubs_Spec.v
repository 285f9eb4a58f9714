(** Annotations with their structure, and their texts with "|" and with "Union". *)
From Coq Require Import ZArith List Bool.
Import ListNotations.
From Verif Require Import Stubs_Model.

(** What stands within a pair of brackets, from left to right: other characters (those of strings included),
    the operator "|", commas, and further brackets *)
Inductive ann :=
| Nil
| Char (c : Z) (r : ann)
| Bar (r : ann)
| Comma (r : ann)
| Group (o c : Z) (inner : ann) (r : ann).

Fixpoint new_style (a : ann) : text :=
  match a with
  | Nil => []
  | Char c r => c :: new_style r
  | Bar r => 124%Z :: new_style r
  | Comma r => 44%Z :: new_style r
  | Group o c i r => o :: new_style i ++ c :: new_style r
  end.
(** The parts between commas: whether a part is a union, and its text with commas for bars *)
Definition more (t : text) (union : bool) (l : list (bool * text)) : list (bool * text) :=
  match l with [] => [] | (b, u) :: l => (union || b, t ++ u) :: l end.
Definition part (p : bool * text) : text := if fst p then [85; 110; 105; 111; 110; 91]%Z ++ snd p ++ [93%Z] else snd p.
Fixpoint with_commas (l : list text) : text :=
  match l with [] => [] | [t] => t | t :: l => t ++ 44%Z :: with_commas l end.
Fixpoint parts (a : ann) : list (bool * text) :=
  match a with
  | Nil => [(false, [])]
  | Char c r => more [c] false (parts r)
  | Bar r => more [44%Z] true (parts r)
  | Comma r => (false, []) :: parts r
  | Group o c i r => more (o :: with_commas (map part (parts i)) ++ [c]) false (parts r)
  end.
Definition old_style (a : ann) : text := with_commas (map part (parts a)).

(** brackets are brackets and other characters none of them *)
Fixpoint proper (a : ann) : Prop :=
  match a with
  | Nil => True
  | Char c r => ~ In c [124; 44; 40; 41; 91; 93]%Z /\ proper r
  | Bar r | Comma r => proper r
  | Group o c i r => In o [40; 91]%Z /\ In c [41; 93]%Z /\ proper i /\ proper r
  end.
Fixpoint no_comma (a : ann) : Prop :=
  match a with Nil => True | Char _ r | Bar r | Group _ _ _ r => no_comma r | Comma _ => False end.
