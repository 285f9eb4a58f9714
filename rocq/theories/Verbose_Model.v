(** Model of the reports of problems, main.py: color 491-503, format_src_context 571-583,
    long_describe_message 594-624, short_describe_message 627-637.

    A file is the list of its lines as linecache gives them: each ends with a line break.
    How numbers are written is a parameter. *)
From Coq Require Import ZArith String List Bool Ascii Arith.
From Verif Require Import Cli_Model.
Import ListNotations.
Open Scope string_scope.
Open Scope list_scope.
Open Scope nat_scope.

Definition newline : string := String (ascii_of_nat 10) EmptyString.
Definition escape : string := String (ascii_of_nat 27) EmptyString.

(** 491-503 *)
Definition OKGREEN : string := (escape ++ "[92m")%string.
Definition WARNING : string := (escape ++ "[93m")%string.
Definition FAIL : string := (escape ++ "[91m")%string.
Definition ENDC : string := (escape ++ "[0m")%string.
Definition color (text effect : string) : string := (effect ++ text ++ ENDC)%string.

(** A problem found: statespace.py AnalysisMessage. *)
Record report := mkReport {
  r_state : mtype; r_text : string; r_file : string; r_line : nat; r_traceback : string }.

(** desc.replace(" when ", "\nwhen "): the occurrences from the left, not overlapping.
    The new text has the length of the old one; [skip] is what is left of an occurrence. *)
Fixpoint replace_when (s : string) (skip : nat) : string :=
  match s with
  | EmptyString => EmptyString
  | String c r =>
      match skip with
      | S k => String c (replace_when r k)
      | O => if prefix " when " s then String (ascii_of_nat 10) (replace_when r 5)
             else String c (replace_when r 0)
      end
  end.

Section Reports.
Variable show : nat -> string.

(** linecache.getline *)
Definition getline (file : list string) (n : nat) : string :=
  match n with O => EmptyString | S k => nth k file EmptyString end.

(** 571-583, format_src_context *)
Definition context_line (file : list string) (lineno cur : nat) : string :=
  let text := getline file cur in
  if (text =? "")%string then EmptyString
  else if lineno =? cur then (">" ++ color text WARNING)%string else ("|" ++ text)%string.
Definition src_context (filename : string) (file : list string) (lineno : nat) : string :=
  let first := Nat.max 1 (lineno - 3) in
  let lines := map (context_line file lineno) (seq first (lineno + 3 + 1 - first)) in
  String.concat "" ((filename ++ ":" ++ show lineno ++ ":" ++ newline)%string :: lines).

(** 603-619 *)
Definition intro (t : mtype) : string :=
  match t with
  | CONFIRMED => "I was able to confirm your postcondition over all paths."
  | CANNOT_CONFIRM => "I wasn't able to find a counterexample."
  | PRE_UNSAT => "I am having trouble finding any inputs that meet your preconditions."
  | POST_ERR => "I got an error while checking your postcondition."
  | EXEC_ERR => "I found an exception while running your function."
  | POST_FAIL => "I was able to make your postcondition return False."
  | SYNTAX_ERR => "One of your conditions isn't a valid python expression."
  | IMPORT_ERR => "I couldn't import a file."
  end.

(** 594-624, long_describe_message *)
Definition long_describe (report_all : bool) (file : list string) (m : report) : option string :=
  let desc := replace_when (r_text m) 0 in
  if negb report_all && (level (r_state m) <=? level PRE_UNSAT)%Z then None
  else
    let i := if (level (r_state m) <=? level CANNOT_CONFIRM)%Z
             then color (intro (r_state m)) OKGREEN else color (intro (r_state m)) FAIL in
    Some (r_traceback m ++ newline ++ i ++ newline ++
          src_context (r_file m) file (r_line m) ++ newline ++ desc ++ newline)%string.

(** 627-637, short_describe_message, as text *)
Definition short_text (report_all : bool) (m : report) : option string :=
  let line sev desc := (r_file m ++ ":" ++ show (r_line m) ++ ": " ++ sev ++ ": " ++ desc)%string in
  if (level (r_state m) <=? level PRE_UNSAT)%Z then
    if report_all then Some (line "info" (r_text m)) else None
  else
    Some (line "error"
            (match r_state m with
             | POST_ERR => "Error while evaluating post condition: " ++ r_text m
             | _ => r_text m
             end)%string).

(** 586-591, describe_message, and the loop of check, 854-866: what is printed, and
    whether a problem was found. *)
Definition describe (report_verbose report_all : bool) (file : list string) (m : report) :=
  if report_verbose then long_describe report_all file m else short_text report_all m.
Fixpoint check_loop (v ra : bool) (file : list string) (ms : list report) (any : bool)
  : list string * bool :=
  match ms with
  | [] => ([], any)
  | m :: rest =>
      match describe v ra file m with
      | None => check_loop v ra file rest any
      | Some line =>
          let (out, p) := check_loop v ra file rest
              (if (level PRE_UNSAT <? level (r_state m))%Z then true else any) in
          ((line ++ newline)%string :: out, p)
      end
  end.
End Reports.
