(** Model of message collection: crosshair/statespace.py 55-100 and core.py 817-837,
    893-935. *)
From Coq Require Import ZArith List Bool.
From Verif Require Import Py Str_Model.
Import ListNotations.
Open Scope Z_scope.

(** statespace.py 55-79 *)
Inductive mtype := CONFIRMED | CANNOT_CONFIRM | PRE_UNSAT | POST_ERR | EXEC_ERR | POST_FAIL | SYNTAX_ERR | IMPORT_ERR.
(** 88-102 MessageType._order *)
Definition m_order (t : mtype) : Z :=
  match t with CONFIRMED => 0 | CANNOT_CONFIRM => 1 | PRE_UNSAT => 2 | POST_ERR => 3 | EXEC_ERR => 4
             | POST_FAIL => 5 | SYNTAX_ERR => 6 | IMPORT_ERR => 7 end.
(** AnalysisMessage: what the collector looks at.  File names are represented by their
    rank in string order, the text by its characters. *)
Record message := mkMsg { m_state : mtype; m_text : str; m_file : Z; m_line : Z; m_col : Z }.

Section Collect.
(** UNABLE_TO_REPR_TEXT in m.message *)
Variable unable : str -> bool.
(** Python's comparison of tuples of integers *)
Fixpoint tuple_lt (a b : list Z) : bool :=
  match a, b with
  | x :: a, y :: b => (x <? y) || ((x =? y) && tuple_lt a b)
  | [], _ :: _ => true
  | _, [] => false
  end.
(** core.py 817-818 message_sort_key *)
Definition sort_key (m : message) : list Z :=
  [m_order (m_state m); if negb (unable (m_text m)) then 1 else 0; - slen (m_text m)].
(** 829 *)
Definition key (m : message) : list Z := [m_file m; m_line m; m_col m].
Fixpoint tuple_eqb (a b : list Z) : bool :=
  match a, b with x :: a, y :: b => (x =? y) && tuple_eqb a b | [], [] => true | _, _ => false end.
(** max(a, b, key=message_sort_key): the first one unless the second is greater *)
Definition max_msg (a b : message) : message := if tuple_lt (sort_key a) (sort_key b) then b else a.
(** 828-833 append: the dict by_pos in insertion order *)
Fixpoint append_ (d : list (list Z * message)) (m : message) : list (list Z * message) :=
  match d with
  | [] => [(key m, m)]
  | (k, old) :: r => if tuple_eqb k (key m) then (k, max_msg old m) :: r else (k, old) :: append_ r m
  end.
(** 824-826 extend *)
Definition extend (d : list (list Z * message)) (l : list message) := fold_left append_ l d.
(** 835-836 get: sorted(by_pos.items()); the keys differ, so messages are never compared *)
Fixpoint insert_ (x : list Z * message) (l : list (list Z * message)) : list (list Z * message) :=
  match l with [] => [x] | y :: r => if tuple_lt (fst x) (fst y) then x :: l else y :: insert_ x r end.
Definition get (d : list (list Z * message)) : list message := map snd (fold_right insert_ [] d).
(** 931-935 run_checkables: each checkable's messages *)
Definition run_checkables (l : list (list message)) : list message := get (fold_left extend l []).
End Collect.

(** 909-920 ClampedCheckable.analyze: [same] is samefile(message.filename, cls_file) *)
Definition clamp (same : Z -> bool) (cls_file cls_line : Z) (l : list message) : list message :=
  map (fun m => if negb (same (m_file m)) then mkMsg (m_state m) (m_text m) cls_file cls_line (m_col m) else m) l.
