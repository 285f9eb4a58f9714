(** Model of how contracts are read from docstrings: crosshair/condition_parser.py
    353-429.  Characters are code points.  A line holds a newline only among its
    trailing whitespace, as the lines of a file do, so that the dot of the patterns
    matches every character that counts. *)
From Coq Require Import ZArith List Bool.
Import ListNotations.
Open Scope Z_scope.

Definition str := list Z.
Inductive section := Post | Pre | Raises | Inv.
Definition section_eqb (a b : section) : bool :=
  match a, b with Post, Post | Pre, Pre | Raises, Raises | Inv, Inv => true | _, _ => false end.
Definition keyword (k : section) : str :=
  match k with
  | Post => [112; 111; 115; 116]
  | Pre => [112; 114; 101]
  | Raises => [114; 97; 105; 115; 101; 115]
  | Inv => [105; 110; 118]
  end.

Section D.
Variable space : Z -> bool.    (* \s, str.isspace, what str.strip removes *)
Variable word : Z -> bool.     (* \w *)

Fixpoint span (f : Z -> bool) (s : str) : str * str :=
  match s with
  | [] => ([], [])
  | c :: r => if f c then let (a, b) := span f r in (c :: a, b) else ([], s)
  end.
Definition lstrip (s : str) : str := snd (span space s).
Definition strip (s : str) : str := rev (lstrip (rev (lstrip s))).
Fixpoint after (p s : str) : option str :=
  match p, s with
  | [], _ => Some s
  | a :: p, b :: s => if a =? b then after p s else None
  | _, [] => None
  end.
(** the alternatives of the pattern, in order *)
Definition take_keyword (s : str) : option (section * str) :=
  match after (keyword Post) s with
  | Some r => Some (Post, r)
  | None => match after (keyword Pre) s with
            | Some r => Some (Pre, r)
            | None => match after (keyword Raises) s with
                      | Some r => Some (Raises, r)
                      | None => option_map (pair Inv) (after (keyword Inv) s)
                      end
            end
  end.
(** 353-361 _HEADER_LINE: indentation, keyword, what is in brackets, content.  Where an
    optional part is there, leaving it out leads to no match. *)
Definition header (l : str) : option (Z * section * option str * str) :=
  let (ind, r) := span space l in
  let r := match r with c :: r' => if c =? 58 then r' else r | [] => r end in
  match take_keyword r with
  | None => None
  | Some (k, r) =>
      let colons (b : option str) (r : str) :=
        match r with
        | c :: r' => if c =? 58 then
                       let r' := match r' with d :: r'' => if d =? 58 then r'' else r' | [] => r' end in
                       Some (Z.of_nat (length ind), k, b, strip r')
                     else None
        | [] => None
        end in
      match r with
      | c :: r' => if c =? 91 then
                     let (b, r'') := span (fun c => word c || space c || (c =? 44) || (c =? 46)) r' in
                     match r'' with d :: r3 => if d =? 93 then colons (Some b) r3 else None | [] => None end
                   else colons None r
      | [] => None
      end
  end.
(** 362 _SECTION_LINE: indentation and content; it matches every line *)
Definition section_line (l : str) : Z * str := (Z.of_nat (length (fst (span space l))), strip l).
(** 376-378 has_expr *)
Definition has_expr (l : str) : bool :=
  match strip l with [] => false | c :: _ => negb (c =? 35) end.

(** 365-373 SectionParse; an entry for each expression, with its section and line; a
    message is a line with the section whose brackets are not allowed, or None for a
    duplicate post section *)
Record parse := mkParse { messages : list (Z * option section); sections : list (section * Z * str); mutable_expr : option str }.
(** 381-429 parse_sections; [cur] is cur_section *)
Fixpoint parse_lines (wanted : list section) (cur : option (section * Z)) (lines : list (Z * str)) (p : parse) : parse :=
  match lines with
  | [] => p
  | (n, l) :: lines =>
      match strip l with
      | [] => parse_lines wanted cur lines p
      | _ =>
          let fresh :=
            match header l with
            | None => parse_lines wanted None lines p
            | Some (ind, k, bracketed, inline) =>
                if negb (existsb (section_eqb k) wanted) then parse_lines wanted None lines p
                else
                  let go p :=
                    if has_expr inline
                    then parse_lines wanted None lines (mkParse (messages p) (sections p ++ [(k, n, inline)]) (mutable_expr p))
                    else parse_lines wanted (Some (k, ind)) lines p in
                  match bracketed with
                  | None => go p
                  | Some b =>
                      if negb (section_eqb k Post)
                      then parse_lines wanted None lines (mkParse (messages p ++ [(n, Some k)]) (sections p) (mutable_expr p))
                      else match mutable_expr p with
                           | Some _ => parse_lines wanted None lines (mkParse (messages p ++ [(n, None)]) (sections p) (mutable_expr p))
                           | None => go (mkParse (messages p) (sections p) (Some b))
                           end
                  end
            end in
          match cur with
          | None => fresh
          | Some (k, indent) =>
              let (this, text) := section_line l in
              if this >? indent then
                parse_lines wanted cur lines
                  (if has_expr text then mkParse (messages p) (sections p ++ [(k, n, text)]) (mutable_expr p) else p)
              else fresh
          end
      end
  end.
Definition parse_sections (wanted : list section) (lines : list (Z * str)) : parse :=
  parse_lines wanted None lines (mkParse [] [] None).

(** 120-133 get_doc_lines, on the lines of the string literal, closing quotes already
    taken off: the opening quotes go together with the indentation before them (OPEN_RE) *)
Definition open_line (l : str) : option str :=
  let r := lstrip l in
  let r := match r with c :: r' => if c =? 114 then r' else r | [] => r end in
  match after [39; 39; 39] r with Some t => Some t | None => after [34; 34; 34] r end.
Fixpoint doc_lines (lines : list (Z * str)) : list (Z * str) :=
  match lines with
  | [] => []
  | (n, l) :: lines => match open_line l with Some t => (n, t) :: lines | None => doc_lines lines end
  end.
(** 681-687 the names in the brackets of post: what is between commas, up to a dot *)
Fixpoint split_on (c : Z) (s : str) : list str :=
  match s with
  | [] => [[]]
  | d :: s => if d =? c then [] :: split_on c s else match split_on c s with p :: q => (d :: p) :: q | [] => [[d]] end
  end.
Definition mutable_args (b : str) : list str :=
  map (fun e => hd [] (split_on 46 (strip e))) (filter (fun e => match e with [] => false | _ => true end) (split_on 44 b)).
End D.
