(* What an f-string is: the texts of its parts, one after another. *)
From Coq Require Import ZArith List Bool.
From Verif Require Import Py FString_Model.
Import ListNotations.

Section Spec.
  Variable V : Type.
  (** str, repr and format of values, as strings *)
  Variables str_of repr_of : V -> outcome text.
  Variable format_of : V -> text -> outcome text.
  Variable quote escape : str -> str.
  Variable format_str : text -> text -> outcome text.

  Definition letters (x : outcome text) : outcome str := match x with Done t => Done (chars t) | Fails e => Fails e end.
  (** A field: the value, converted by !s, !r or !a if asked, then formatted. *)
  Inductive conversion := NoConversion | AsStr | AsRepr | AsAscii.
  Definition flag (c : conversion) : nat := match c with NoConversion => 0 | AsStr => 1 | AsRepr => 2 | AsAscii => 3 end.
  Definition py_str (o : obj V) : outcome str :=
    match o with Txt _ t => Done (chars t) | Val _ v => letters (str_of v) | Wrap _ _ => Fails CrossHairInternal end.
  Definition py_repr (o : obj V) : outcome str :=
    match o with Txt _ t => Done (quote (chars t)) | Val _ v => letters (repr_of v) | Wrap _ _ => Fails CrossHairInternal end.
  Definition py_format (o : obj V) (spec : str) : outcome str :=
    match o with
    | Txt _ t => letters (format_str (Text false (chars t)) (Text false spec))
    | Val _ v => letters (format_of v (Text false spec))
    | Wrap _ _ => Fails CrossHairInternal
    end.
  Definition py_field (o : obj V) (c : conversion) (spec : str) : outcome str :=
    let formatted x := match x with Done s => letters (format_str (Text false s) (Text false spec)) | Fails e => Fails e end in
    match c with
    | NoConversion => py_format o spec
    | AsStr => formatted (py_str o)
    | AsRepr => formatted (py_repr o)
    | AsAscii => formatted (match py_repr o with Done s => Done (escape s) | Fails e => Fails e end)
    end.
  Definition py_piece (p : piece V) : outcome str :=
    match p with
    | Lit _ s => Done s
    | Field _ o n spec =>
        match spec with
        | None | Some (Txt _ _) =>
            py_field o (match n with 0 => NoConversion | 1 => AsStr | 2 => AsRepr | _ => AsAscii end)
              (match spec with Some (Txt _ t) => chars t | _ => [] end)
        | _ => Fails CrossHairInternal
        end
    end.
  Fixpoint py_fstring (l : list (piece V)) : outcome str :=
    match l with
    | [] => Done []
    | p :: r =>
        match py_piece p with
        | Done s => match py_fstring r with Done t => Done (s ++ t) | Fails e => Fails e end
        | Fails e => Fails e
        end
    end.

  (** Fields that are dealt with: no conversion and a format that is a real string, or no
      format and no conversion to ASCII. *)
  Definition easy_piece (p : piece V) : Prop :=
    match p with
    | Lit _ _ => True
    | Field _ o n spec =>
        match o with Wrap _ _ => False | _ => True end /\
        match spec with
        | None => n <= 2
        | Some (Txt _ (Text false _)) => n = 0
        | _ => False
        end
    end.
  (** What an f-string leaves on the stack. *)
  Definition leaves (stack : list (obj V)) (r : outcome str) (r' : outcome (list (obj V))) : Prop :=
    match r with
    | Done s => exists b, r' = Done (Txt _ (Text b s) :: stack)
    | Fails e => r' = Fails e
    end.
End Spec.
