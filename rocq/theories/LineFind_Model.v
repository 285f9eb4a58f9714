(** Model of finding the function on a line (crosshair check file.py:LINE): fnutil.py
    _contains_line 281-287, load_function_at_line 290-307 and load_files_or_qualnames 362-371.

    What getmembers gives of a module or class is a list in the order of the names: a name,
    whether it is in the entity's own dictionary (and not inherited), and the member.  [here]
    says that its __module__ is the module's; the file is then taken to be the same.  Classes
    that contain each other are not modelled. *)
From Coq Require Import ZArith List Bool.
From Verif Require Import Py.
Import ListNotations.
Open Scope Z_scope.

Inductive member :=
| Fn (here : bool) (start len : Z)       (* a function and its lines; also a staticmethod *)
| Bound (here : bool) (start len : Z)    (* a classmethod: getmembers gives a bound method *)
| Cls (here : bool) (ms : list (Z * bool * member))
| Other.

(** 281-287 *)
Definition contains_line (start len line : Z) : bool :=
  let stop := start + len in (start <=? line) && (line <=? stop).
(** 290-307: the names that lead to the function *)
Fixpoint load_member (own : bool) (m : member) (line : Z) : res (option (list Z)) :=
  match m with
  | Fn true start len =>
      if contains_line start len line
      then if own then Ok (Some []) else Err KeyError        (* 302: entity.__dict__[name] *)
      else Ok None
  | Cls true ms =>
      (fix scan (ms : list (Z * bool * member)) : res (option (list Z)) :=
         match ms with
         | [] => Ok None
         | (n, own, m) :: ms =>
             do x <- load_member own m line;
             match x with Some p => Ok (Some (n :: p)) | None => scan ms end
         end) ms
  | _ => Ok None
  end.
(** 362-371: None is the message that there is no function on the line *)
Definition load_function_at_line (ms : list (Z * bool * member)) (line : Z) : res (option (list Z)) :=
  load_member true (Cls true ms) line.
