(* Model of the command line front end: crosshair/main.py (what check prints and how it
   exits, what watch keeps on the screen) and crosshair/fnutil.py (how a target name is
   resolved).

   Simplifications.  Names are integers.  Attributes of a module or class are those in its
   own dictionary.  Importing is a table from dotted prefixes to outcomes.  The analysis
   itself is a parameter: the messages it gives for the loaded targets. *)
From Coq Require Import ZArith List Bool.
Import ListNotations.
Local Open Scope Z_scope.

(* ------------------------------------------------------------------ *)
(** * Messages: statespace.py 55-102 *)

Inductive mtype :=
  CONFIRMED | CANNOT_CONFIRM | PRE_UNSAT | POST_ERR | EXEC_ERR | POST_FAIL | SYNTAX_ERR | IMPORT_ERR.

(** statespace.py 85-102, MessageType._order *)
Definition level (t : mtype) : Z :=
  match t with
  | CONFIRMED => 0 | CANNOT_CONFIRM => 1 | PRE_UNSAT => 2 | POST_ERR => 3
  | EXEC_ERR => 4 | POST_FAIL => 5 | SYNTAX_ERR => 6 | IMPORT_ERR => 7
  end.

Record message := Msg { mstate : mtype; mfile : Z; mline : Z; mtext : Z }.

Inductive severity := Info | Error.

(** One line of output: "<file>:<line>: <severity>: <text>"; the flag says whether the text
    is preceded by "Error while evaluating post condition: ". *)
Record line := Line { lfile : Z; lline : Z; lsev : severity; lpost : bool; ltext : Z }.

(** main.py 627-637, short_describe_message *)
Definition short_describe (report_all : bool) (m : message) : option line :=
  if level (mstate m) <=? level PRE_UNSAT then
    if report_all then Some (Line (mfile m) (mline m) Info false (mtext m)) else None
  else
    Some (Line (mfile m) (mline m) Error
               (match mstate m with POST_ERR => true | _ => false end) (mtext m)).

(* ------------------------------------------------------------------ *)
(** * Resolving targets: fnutil.py 191-267, 353-373 *)

Inductive obj :=
| OModule (attrs : list (Z * obj))
| OClass (attrs : list (Z * obj))
| OFunction.

(** the name "<locals>" *)
Definition locals_name : Z := -1.

Inductive load_err :=
| FileNotFoundError
| ErrorDuringImport
| NotFound
| OtherError.      (** AssertionError, ValueError, AttributeError *)

Inductive loaded := LObj (o : obj) | LErr (e : load_err).

Fixpoint get_attr (n : Z) (l : list (Z * obj)) : option obj :=
  match l with
  | [] => None
  | (k, o) :: l' => if n =? k then Some o else get_attr n l'
  end.

(** fnutil.py 191-220, walk_qualname *)
Fixpoint walk_qualname (o : obj) (parts : list Z) : loaded :=
  match parts with
  | [] => LErr OtherError
  | [lastpart] =>
      match o with
      | OModule attrs | OClass attrs =>
          match get_attr lastpart attrs with
          | Some target => LObj target
          | None => LErr NotFound
          end
      | OFunction => LErr NotFound
      end
  | part :: rest =>
      if part =? locals_name then LErr OtherError
      else
        match o with
        | OModule attrs | OClass attrs =>
            match get_attr part attrs with
            | Some o' => walk_qualname o' rest
            | None => LErr NotFound
            end
        | OFunction => LErr NotFound
        end
  end.

(** What happens on looking up and importing a dotted module name (fnutil.py 246-256) *)
Inductive import_result :=
| NoSuchModule            (** no spec, or ModuleNotFoundError while looking for it *)
| ImportFails             (** any other exception *)
| Imported (m : obj).

Section Load.
  Variable import : list Z -> import_result.

  (** fnutil.py 243-266, load_by_qualname: progressively shorter prefixes, [i] parts of the
      name.  The NotFound raised at [i = 1] is raised inside the outer [try], which turns it
      into an ErrorDuringImport. *)
  Fixpoint load_prefix (i : nat) (parts : list Z) : loaded :=
    match i with
    | O => LErr OtherError
    | S i' =>
        match import (firstn i parts) with
        | NoSuchModule =>
            match i' with
            | O => LErr ErrorDuringImport
            | _ => load_prefix i' parts
            end
        | ImportFails => LErr ErrorDuringImport
        | Imported m =>
            match skipn i parts with
            | [] => LObj m
            | remaining => walk_qualname m remaining
            end
        end
    end.

  Definition load_by_qualname (parts : list Z) : loaded := load_prefix (length parts) parts.

  (** A target on the command line: a dotted name, or a path with the outcome of loading it.
      ("file.py:12" loads at once; files and directories are loaded after all names.) *)
  Inductive target :=
  | TName (parts : list Z)
  | TFileAtLine (r : loaded)
  | TPath (r : loaded).

  Definition load_now (t : target) : option loaded :=
    match t with
    | TName parts => Some (load_by_qualname parts)
    | TFileAtLine r => Some r
    | TPath _ => None
    end.

  Definition load_later (t : target) : option loaded :=
    match t with TPath r => Some r | _ => None end.

  Fixpoint gather (l : list (option loaded)) : list obj + load_err :=
    match l with
    | [] => inl []
    | None :: l' => gather l'
    | Some (LErr e) :: _ => inr e
    | Some (LObj o) :: l' =>
        match gather l' with
        | inl os => inl (o :: os)
        | inr e => inr e
        end
    end.

  (** fnutil.py 353-373, load_files_or_qualnames *)
  Definition load_targets (ts : list target) : list obj + load_err :=
    gather (map load_now ts ++ map load_later ts).

  (* ------------------------------------------------------------------ *)
  (** * check: main.py 660-672, 839-866 *)

  Variable analyze : list obj -> list message.

  (** main.py 854-866: the lines printed and [any_problems] *)
  Fixpoint report (report_all : bool) (ms : list message) (any_problems : bool)
    : list line * bool :=
    match ms with
    | [] => ([], any_problems)
    | m :: rest =>
        match short_describe report_all m with
        | None => report report_all rest any_problems
        | Some ln =>
            let '(out, p) := report report_all rest
                (if level PRE_UNSAT <? level (mstate m) then true else any_problems) in
            (ln :: out, p)
        end
    end.

  (** The exit status of the process and what it printed on the standard output.  An
      exception that nothing catches ends a Python process with status 1. *)
  Definition check (report_all : bool) (ts : list target) : Z * list line :=
    match load_targets ts with
    | inr FileNotFoundError => (2, [])
    | inr ErrorDuringImport => (2, [])
    | inr NotFound => (1, [])
    | inr OtherError => (1, [])
    | inl entities =>
        let '(out, any_problems) := report report_all (analyze entities) false in
        ((if any_problems then 1 else 0), out)
    end.
End Load.

(* ------------------------------------------------------------------ *)
(** * watch: main.py 411-475, 506-517 *)

(** [active_messages]: a dictionary keyed by (file, line) *)
Definition same_place (a b : message) : bool :=
  (mfile a =? mfile b) && (mline a =? mline b).

(** main.py 506-517, messages_merged: the new dictionary and [any_change] *)
Fixpoint merge (active : list message) (new : list message) (any_change : bool)
  : list message * bool :=
  match new with
  | [] => (active, any_change)
  | m :: rest =>
      if existsb (same_place m) active then merge active rest any_change
      else merge (active ++ [m]) rest true
  end.

Record ui := UI {
  restart : bool;
  change_flag : bool;          (** Watcher._change_flag *)
  active : list message;
  screen : list message        (** the messages displayed at present *)
}.

(** One item that a pass yields: messages, and whether the change flag was raised before it *)
Record batch := Batch { bmsgs : list message; bflag : bool }.

(** main.py 434-475, the body of the inner loop *)
Definition show_batch (rewritable : bool) (b : batch) (u : ui) : ui :=
  let flag := change_flag u || bflag b in
  let messages := filter (fun m => level PRE_UNSAT <? level (mstate m)) (bmsgs b) in
  let '(act, merged) := merge (active u) messages false in
  let scr := if merged then act else screen u in
  if negb merged && negb rewritable then UI (restart u) flag act scr   (* [continue] *)
  else if flag then UI true false act scr
  else UI (restart u) flag act scr.

(** main.py 419-433: the start of one turn of the outer loop.  [clear_screen] empties the
    screen. *)
Definition begin_turn (u : ui) : ui :=
  if restart u then UI false (change_flag u) [] [] else u.

Definition turn (rewritable : bool) (u : ui) (pass : list batch) : ui :=
  fold_left (fun u b => show_batch rewritable b u) pass (begin_turn u).

(** main.py 416-418: the state before the first turn *)
Definition ui_start : ui := UI true false [] [].

Definition watch_loop (rewritable : bool) (passes : list (list batch)) : ui :=
  fold_left (turn rewritable) passes ui_start.
