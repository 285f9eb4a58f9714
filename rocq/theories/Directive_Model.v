(** Model of where directives are found: crosshair/codeconfig.py 14-40 (get_directives) and 82-118
    (the scopes that collect_options goes through).  What a directive's text means, and how the
    options of the scopes are laid over each other, is in Options_Model.

    A text is the list of its characters; [ws] is what \s matches in a regular expression.  A
    comment is what tokenize gives: a text with no line ends that starts with the number sign.  A
    file is the list of its comments, each with its column and the functions and classes around it,
    outermost first.  inspect.getsourcelines is taken to give a function's own lines, and tokenize
    is taken to read them without an error (35-39 are not modelled). *)
From Coq Require Import ZArith List Bool.
From Verif Require Import Py Options_Model.
Import ListNotations.
Open Scope Z_scope.
Definition text := list Z.
Definition crosshair_ : text := [99; 114; 111; 115; 115; 104; 97; 105; 114].

Record comment := { col : Z; around : list Z; said : text }.
(** A module or package (its __init__.py): inspect.ismodule holds for both *)
Record file := { is_package : bool; comments : list comment }.
Definition name := list text.

Section Directive.
Variable ws : Z -> bool.

(** 14: \s*, greedy.  Nothing that may follow it here is white space, so it never gives any back *)
Fixpoint skip_space (s : text) : text :=
  match s with c :: r => if ws c then skip_space r else s | [] => [] end.
Fixpoint literal (p s : text) : option text :=
  match p, s with
  | [], s => Some s
  | a :: p, b :: s => if a =? b then literal p s else None
  | _ :: _, [] => None
  end.
(** 14: (.*?)\s*$ gives the shortest text after which there is only white space *)
Fixpoint shortest (s : text) : text :=
  if forallb ws s then [] else match s with c :: r => c :: shortest r | [] => [] end.
(** 14, 32: _COMMENT_TOKEN_RE.sub(r"\1", tokval), which gives tokval when there is no match *)
Definition re_sub (s : text) : text :=
  match literal [35] s with
  | None => s
  | Some r => match literal crosshair_ (skip_space r) with
              | None => s
              | Some r => match literal [58] (skip_space r) with
                          | None => s
                          | Some r => shortest (skip_space r)
                          end
              end
  end.
Fixpoint same_text (a b : text) : bool :=
  match a, b with [], [] => true | x :: a, y :: b => (x =? y) && same_text a b | _, _ => false end.
(** 17-40 get_directives *)
Fixpoint get_directives (cs : list comment) : list (Z * text) :=
  match cs with
  | [] => []
  | c :: cs => let directive := re_sub (said c) in
               if same_text (said c) directive then get_directives cs
               else (col c, directive) :: get_directives cs
  end.

(** sys.modules, by the parts of the dotted name *)
Variable modules : name -> option file.
Definition package_of (n : name) (f : file) : name := if is_package f then n else removelast n.
(** The parts before the last dot: rpartition *)
Definition rpartition (n : name) : name := removelast n.
Definition parent_pkg (n : name) (f : file) : name :=
  if is_package f then rpartition (package_of n f) else package_of n f.
(** 85-94, 96-110 for a module; the scopes are given outermost first, each with whether
    inspect.ismodule holds (111).  KeyError when a package is not in sys.modules *)
Fixpoint module_scopes (fuel : nat) (n : name) : res (list scope) :=
  match fuel with
  | O => Err OutOfFuel
  | S fuel =>
      match modules n with
      | None => Err KeyError
      | Some f =>
          let own := (true, get_directives (comments f)) in
          match package_of n f with
          | [] => Ok [own]
          | _ => match parent_pkg n f with
                 | [] => Ok [own]
                 | p => match module_scopes fuel p with
                        | Ok up => Ok (up ++ [own])
                        | Err e => Err e
                        end
                 end
          end
      end
  end.
(** 86-87, 107-110 for a function: its module's options, then the comments in its source *)
Definition source_of (fn : Z) (f : file) : list comment :=
  filter (fun c => existsb (Z.eqb fn) (around c)) (comments f).
Definition function_scopes (n : name) (fn : Z) : res (list scope) :=
  match module_scopes (S (length n)) n, modules n with
  | Ok up, Some f => Ok (up ++ [(false, get_directives (source_of fn f))])
  | Ok _, None => Err KeyError
  | Err e, _ => Err e
  end.
End Directive.
