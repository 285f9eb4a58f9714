From Coq Require Import ZArith List Bool Sorted.
From Verif Require Import Py Str_Model Messages_Model.
Import ListNotations.
Open Scope Z_scope.

(** Severity, most severe last, as documented for MessageType *)
Definition severity (t : mtype) : Z :=
  match t with CONFIRMED => 0 | CANNOT_CONFIRM => 1 | PRE_UNSAT => 2 | POST_ERR => 3 | EXEC_ERR => 4
             | POST_FAIL => 5 | SYNTAX_ERR => 6 | IMPORT_ERR => 7 end.
Definition same_place (a b : message) : Prop := m_file a = m_file b /\ m_line a = m_line b /\ m_col a = m_col b.
Definition before (a b : message) : Prop :=
  m_file a < m_file b \/
  (m_file a = m_file b /\ (m_line a < m_line b \/ (m_line a = m_line b /\ m_col a < m_col b))).
(** [a] is at most as good to show as [b]: less severe; if as severe, [b] shows all its
    values or [a] does not, and [b] is no longer *)
Definition worse_eq (unable : str -> bool) (a b : message) : Prop :=
  severity (m_state a) < severity (m_state b) \/
  (severity (m_state a) = severity (m_state b) /\
   ((unable (m_text a) = true /\ unable (m_text b) = false) \/
    (unable (m_text a) = unable (m_text b) /\ slen (m_text b) <= slen (m_text a)))).
(** The messages shown for those collected *)
Definition shows (unable : str -> bool) (l out : list message) : Prop :=
  StronglySorted before out /\
  (forall m, In m out -> In m l /\ forall m', In m' l -> same_place m' m -> worse_eq unable m' m) /\
  (forall m, In m l -> exists m', In m' out /\ same_place m m').
