(* Model of crosshair/core.py 1208-1249 (MessageGenerator: where a message about a function is put),
   868-899 (ClampedCheckable: where one about a class is put) and util.py 120-124 (samefile), with
   what they use of sourcelines (util.py 207-225).

   Files and the texts of lines are numbers.  os.path.abspath, the contents of files (linecache,
   nothing for a file that is not there) and os.path.samefile are parameters. *)
From Coq Require Import ZArith List Bool.
Import ListNotations.
Open Scope Z_scope.

(** fn.__code__: co_filename and co_firstlineno *)
Record code := Code { co_filename : Z; co_firstlineno : Z }.
(** A callable: its own code object, if it has one; the number of lines that sourcelines gives,
    which are those of the function it wraps if it wraps one *)
Record fn := Fn { own_code : option code; source_lines : nat }.

Section Locate.
  Variable abspath : Z -> Z.
  Variable getlines : Z -> list Z.
  (** the file name "" *)
  Variable no_file : Z.

  Record generator := Gen { filename : Z; start_lineno : Z; end_lineno : option Z }.
  (** 1209-1217 *)
  Definition new_generator (f : fn) : generator :=
    match own_code f with
    | Some c => Gen (co_filename c) (co_firstlineno c) (Some (co_firstlineno c + Z.of_nat (source_lines f)))
    | None => Gen no_file 0 None
    end.

  (** What is put before the message's text: nothing, the text of a line, or "<unknown>" *)
  Inductive quoted := Nothing | Line (text : Z) | Unknown.
  Record message := Msg { m_file : Z; m_line : Z; m_quoted : quoted }.

  (** lines[i], None is IndexError *)
  Definition index (l : list Z) (i : Z) : option Z :=
    let i := if i <? 0 then i + Z.of_nat (length l) else i in
    if i <? 0 then None else nth_error l (Z.to_nat i).

  (** 1219-1249; None is AttributeError: there is no end_lineno *)
  Definition make (g : generator) (suggested_filename : option Z) (suggested_lineno : Z) : option message :=
    let elsewhere :=
      let exprline :=
        match suggested_filename with
        | None => Unknown
        | Some f => match index (getlines f) (suggested_lineno - 1) with Some t => Line t | None => Unknown end
        end in
      Some (Msg (filename g) (start_lineno g) exprline) in
    match suggested_filename with
    | Some f =>
        if (abspath f =? abspath (filename g)) && (start_lineno g <=? suggested_lineno) then
          match end_lineno g with
          | None => None
          | Some e => if suggested_lineno <=? e then Some (Msg f suggested_lineno Nothing) else elsewhere
          end
        else elsewhere
    | None => elsewhere
    end.

  (** 868-899; a class has the file and the first line that sourcelines gives *)
  Variable same_file : Z -> Z -> bool.
  Definition clamp (cls_file cls_start_line : Z) (m : message) : message :=
    if negb (same_file (m_file m) cls_file) then Msg cls_file cls_start_line (m_quoted m) else m.
End Locate.
