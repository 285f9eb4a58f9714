(** Docstrings as people write them (PEP 316 style), and the contracts they state. *)
From Coq Require Import String Ascii ZArith List Bool.
From Verif Require Import Docstring_Model.
Import ListNotations.
Open Scope list_scope.
Open Scope Z_scope.

(** how the sections are called *)
Definition title (k : section) : str :=
  map (fun a => Z.of_nat (nat_of_ascii a))
      (list_ascii_of_string (match k with Post => "post" | Pre => "pre" | Raises => "raises" | Inv => "inv" end)).

(** A line under a section: an expression, a comment, or whitespace only *)
Inductive body := BExpr (indent : str) (e : str) (trail : str) | BComment (indent : str) (text : str) (trail : str) | BBlank (l : str).
(** A header: indentation, perhaps a colon, the keyword, perhaps names in brackets, one
    or two colons *)
Record head := mkHead { h_indent : str; h_colon : bool; h_section : section; h_names : option str; h_double : bool }.
(** A docstring is made of prose lines, sections on one line and sections with an
    indented body; the header of the latter may end in a comment. *)
Inductive item :=
| Prose (l : str)
| Inline (h : head) (gap e trail : str)
| Block (h : head) (gap comment trail : str) (b : list body).

Definition head_text (h : head) : str :=
  h_indent h ++ (if h_colon h then [58] else []) ++ title (h_section h) ++
  (match h_names h with Some b => [91] ++ b ++ [93] | None => [] end) ++ [58] ++ (if h_double h then [58] else []).
Definition body_text (b : body) : str :=
  match b with BExpr i e t => i ++ e ++ t | BComment i c t => i ++ [35] ++ c ++ t | BBlank l => l end.
Definition item_lines (i : item) : list str :=
  match i with
  | Prose l => [l]
  | Inline h gap e trail => [head_text h ++ gap ++ e ++ trail]
  | Block h gap comment trail b => (head_text h ++ gap ++ comment ++ trail) :: map body_text b
  end.
Fixpoint number (n : Z) (l : list str) : list (Z * str) := match l with [] => [] | x :: l => (n, x) :: number (n + 1) l end.
Definition render (n : Z) (d : list item) : list (Z * str) := number n (flat_map item_lines d).

(** What it states: each expression with its section and line number, in order *)
Definition blen {A} (l : list A) : Z := Z.of_nat (length l).
Fixpoint body_entries (k : section) (n : Z) (b : list body) : list (section * Z * str) :=
  match b with
  | [] => []
  | BExpr _ e _ :: b => (k, n, e) :: body_entries k (n + 1) b
  | _ :: b => body_entries k (n + 1) b
  end.
Definition item_entries (n : Z) (i : item) : list (section * Z * str) :=
  match i with
  | Prose _ => []
  | Inline h _ e _ => [(h_section h, n, e)]
  | Block h _ _ _ b => body_entries (h_section h) (n + 1) b
  end.
Fixpoint entries (n : Z) (d : list item) : list (section * Z * str) :=
  match d with [] => [] | i :: d => item_entries n i ++ entries (n + blen (item_lines i)) d end.
Definition names (d : list item) : list str :=
  flat_map (fun i => match i with Prose _ => [] | Inline h _ _ _ | Block h _ _ _ _ => match h_names h with Some b => [b] | None => [] end end) d.

Section W.
Variable space word : Z -> bool.
(** what is needed of the classes of characters: punctuation and letters are not
    whitespace, and a closing bracket is no part of a name *)
Definition usual : Prop :=
  space 34 = false /\ space 58 = false /\ space 44 = false /\ space 46 = false /\ space 35 = false /\ space 93 = false /\ word 93 = false /\
  forall k c, In c (title k) -> space c = false.
Definition blank (s : str) : Prop := Forall (fun c => space c = true) s.
(** text that neither starts nor ends with whitespace *)
Definition trimmed (s : str) : Prop :=
  match s with [] => True | c :: _ => space c = false end /\ match rev s with [] => True | c :: _ => space c = false end.
Definition expression (e : str) : Prop := trimmed e /\ match e with [] => False | c :: _ => c <> 35 /\ c <> 58 end.
(** indentation is followed by something that is not whitespace *)
Definition indent_of (l : str) : Z := blen (fst (span space l)).
(** no header: after the indentation and perhaps a colon, there is no keyword followed
    by a colon or an opening bracket *)
Definition no_header (l : str) : Prop :=
  forall i k c r, blank i -> c = 58 \/ c = 91 -> l <> i ++ title k ++ [c] ++ r /\ l <> i ++ [58] ++ title k ++ [c] ++ r.

Definition good_head (wanted : list section) (h : head) : Prop :=
  blank (h_indent h) /\ In (h_section h) wanted /\
  match h_names h with
  | Some b => h_section h = Post /\ Forall (fun c => word c = true \/ space c = true \/ c = 44 \/ c = 46) b
  | None => True
  end.
Definition good_body (indent : Z) (b : body) : Prop :=
  match b with
  | BExpr i e t => blank i /\ blank t /\ indent < blen i /\ trimmed e /\ match e with [] => False | c :: _ => c <> 35 end
  | BComment i c t => blank i /\ blank t /\ indent < blen i /\ trimmed (35 :: c)
  | BBlank l => blank l
  end.
Definition good_item (wanted : list section) (i : item) : Prop :=
  match i with
  | Prose l => no_header l
  | Inline h gap e trail => good_head wanted h /\ blank gap /\ blank trail /\ expression e
  | Block h gap comment trail b =>
      good_head wanted h /\ blank gap /\ blank trail /\ trimmed comment /\
      match comment with [] => True | c :: _ => c = 35 end /\ Forall (good_body (blen (h_indent h))) b
  end.
Definition starts_at (i : item) : Z :=
  match i with Prose l => indent_of l | Inline h _ _ _ | Block h _ _ _ _ => blen (h_indent h) end.
Definition blank_item (i : item) : Prop := match i with Prose l => blank l | _ => False end.
(** After an indented section, and blank lines, what follows is not indented more than
    its header. *)
Fixpoint outdented (open : option Z) (d : list item) : Prop :=
  match d with
  | [] => True
  | i :: d =>
      (blank_item i /\ outdented open d) \/
      (~ blank_item i /\ match open with Some n => starts_at i <= n | None => True end /\
       outdented (match i with Block h _ _ _ _ => Some (blen (h_indent h)) | _ => None end) d)
  end.
(** the indentation of the section that is open at the end, blank lines aside *)
Fixpoint open_at_end (open : option Z) (d : list item) : option Z :=
  match d with
  | [] => open
  | Block h _ _ _ _ :: d => open_at_end (Some (blen (h_indent h))) d
  | Inline _ _ _ _ :: d => open_at_end None d
  | Prose l :: d => open_at_end (match strip space l with [] => open | _ => None end) d
  end.
(** A name in brackets: whitespace around it, and perhaps a path from it after a dot *)
Record name := mkName { n_before : str; n_name : str; n_path : option str; n_after : str }.
Definition name_text (x : name) : str :=
  n_before x ++ n_name x ++ (match n_path x with Some q => [46] ++ q | None => [] end) ++ n_after x.
Definition good_name (x : name) : Prop :=
  blank (n_before x) /\ blank (n_after x) /\ n_name x <> [] /\
  (forall c, In c (n_name x) -> space c = false /\ c <> 44 /\ c <> 46) /\
  match n_path x with Some q => forall c, In c q -> space c = false /\ c <> 44 | None => True end.
Fixpoint names_text (l : list name) : str :=
  match l with [] => [] | [x] => name_text x | x :: l => name_text x ++ [44] ++ names_text l end.
(** The docstring as it stands in the program: the opening quotes come after the
    indentation of the first line. *)
Definition quoted (lines : list (Z * str)) : list (Z * str) :=
  match lines with
  | [] => []
  | (n, l) :: lines => (n, fst (span space l) ++ [34; 34; 34] ++ snd (span space l)) :: lines
  end.
(** an expression found in a docstring comes from one of its lines *)
Definition from_line (wanted : list section) (lines : list (Z * str)) (x : section * Z * str) : Prop :=
  let '(k, n, e) := x in
  In k wanted /\ ~ blank e /\ exists l before rest, In (n, l) lines /\ l = before ++ e ++ rest.
(** A docstring: each part is well formed, and names are given at most once *)
Definition good (wanted : list section) (d : list item) : Prop :=
  Forall (good_item wanted) d /\ outdented None d /\ (length (names d) <= 1)%nat.
End W.
