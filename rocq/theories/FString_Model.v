(* Model of f-strings while code is traced: crosshair/opcode_intercept.py 323-340
   (FormatStashingValue), 406-435 (BuildStringInterceptor) and 438-464
   (FormatValueInterceptor), for Python up to 3.12, with the opcodes FORMAT_VALUE and
   BUILD_STRING of the interpreter that run between the interceptors' two halves.

   Strings are lists of code points.  Objects other than strings, and what str, repr, ascii
   and format do with them, are parameters. *)
From Coq Require Import ZArith List Bool Arith.
From Verif Require Import Py.
Import ListNotations.

Definition str := list Z.
Inductive fail := Raise (e : exc) | SystemError | CrossHairInternal.
Inductive outcome (A : Type) := Done (a : A) | Fails (f : fail).
Arguments Done {A}.
Arguments Fails {A}.
Definition andthen {A B} (x : outcome A) (f : A -> outcome B) : outcome B :=
  match x with Done a => f a | Fails e => Fails e end.

(** A string result, and whether it is symbolic *)
Record text := Text { symbolic : bool; chars : str }.

Section FString.
  Variable V : Type.
  Variables str_of repr_of : V -> outcome text.
  Variable format_of : V -> text -> outcome text.
  (** repr of a string, ascii's escapes, and formats of strings *)
  Variable quote escape : str -> str.
  Variable format_str : text -> text -> outcome text.

  (** [Txt (Text true s)]: a symbolic string; [Wrap o]: FormatStashingValue(o) *)
  Inductive obj := Txt (t : text) | Val (v : V) | Wrap (o : obj).
  Definition Str (s : str) : obj := Txt (Text false s).

  (** The builtin functions, as far as the wrapper's methods call them (326-340; tracing is on) *)
  Fixpoint call_str (o : obj) : outcome text :=
    match o with Txt t => Done t | Val v => str_of v | Wrap o => call_str o end.
  Fixpoint call_repr (o : obj) : outcome text :=
    match o with Txt t => Done (Text (symbolic t) (quote (chars t))) | Val v => repr_of v | Wrap o => call_repr o end.
  Fixpoint call_format (o : obj) (spec : text) : outcome text :=
    match o with Txt t => format_str t spec | Val v => format_of v spec | Wrap o => call_format o spec end.

  (** What the interpreter gets from them, and what the wrapper has put away.  The interpreter
      refuses results that are not real strings. *)
  Definition stash (x : outcome text) : outcome (str * option text) :=
    andthen x (fun s => Done ([], Some s)).
  Definition plain (x : outcome text) : outcome (str * option text) :=
    andthen x (fun s => if symbolic s then Fails (Raise TypeError) else Done (chars s, None)).
  Definition op_str (o : obj) : outcome (str * option text) :=
    match o with Wrap o => stash (call_str o) | o => plain (call_str o) end.
  Definition op_repr (o : obj) : outcome (str * option text) :=
    match o with Wrap o => stash (call_repr o) | o => plain (call_repr o) end.
  (** ascii takes the repr and escapes what is not ASCII *)
  Definition op_ascii (o : obj) : outcome (str * option text) :=
    andthen (op_repr o) (fun r => Done (escape (fst r), snd r)).
  Definition op_format (o : obj) (spec : text) : outcome (str * option text) :=
    match o with Wrap o => stash (call_format o spec) | o => plain (call_format o spec) end.

  (** FORMAT_VALUE: conversion, then the format, unless a string has none.  The stack's top
      comes first. *)
  Definition has_spec (flags : nat) : bool := Nat.leb 4 flags.
  Definition convert (flags : nat) (o : obj) : outcome (obj * option text) :=
    let result x := andthen x (fun r => Done (Str (fst r), snd r)) in
    match Nat.modulo flags 4 with
    | 0 => Done (o, None)
    | 1 => result (op_str o)
    | 2 => result (op_repr o)
    | _ => result (op_ascii o)
    end.
  Definition format_value (flags : nat) (stack : list obj) : outcome (list obj * option text) :=
    let finish value spec rest :=
      andthen (convert flags value) (fun r =>
        match spec, fst r with
        | None, Txt (Text false s) => Done (Str s :: rest, snd r)
        | None, o =>
            andthen (op_format o (Text false [])) (fun q => Done (Str (fst q) :: rest, snd q))
        | Some (Txt (Text false s)), o =>
            andthen (op_format o (Text false s)) (fun q => Done (Str (fst q) :: rest, snd q))
        | Some _, _ => Fails SystemError
        end) in
    match has_spec flags, stack with
    | true, spec :: value :: rest => finish value (Some spec) rest
    | false, value :: rest => finish value None rest
    | _, _ => Fails CrossHairInternal
    end.

  (** 443-464 FormatValueInterceptor around it *)
  Definition is_sym (o : obj) : bool := match o with Txt t => symbolic t | _ => false end.
  Definition traced_format_value (flags : nat) (stack : list obj) : outcome (list obj) :=
    let around (put : obj -> list obj) (orig : obj) : outcome (list obj) :=
      if (Nat.eqb flags 0 || Nat.eqb flags 1) && is_sym orig then
        andthen (format_value flags (put (Str []))) (fun r =>
          match fst r with _ :: rest => Done (orig :: rest) | [] => Fails CrossHairInternal end)
      else
        andthen (format_value flags (put (Wrap orig))) (fun r =>
          match fst r, snd r with
          | _ :: rest, Some s => Done (Txt s :: rest)
          | _, _ => Fails (Raise AttributeError)
          end) in
    if Nat.eqb flags 4 then
      match stack with
      | spec :: orig :: rest => around (fun o => spec :: o :: rest) orig
      | _ => Fails CrossHairInternal
      end
    else
      match stack with
      | orig :: rest => around (fun o => o :: rest) orig
      | [] => Fails CrossHairInternal
      end.

  (** BUILD_STRING: only exact strings *)
  Fixpoint join (l : list obj) : outcome str :=
    match l with
    | [] => Done []
    | Txt (Text false s) :: r => andthen (join r) (fun t => Done (s ++ t))
    | _ :: _ => Fails (Raise TypeError)
    end.
  Definition build_string (n : nat) (stack : list obj) : outcome (list obj) :=
    andthen (join (rev (firstn n stack))) (fun s => Done (Str s :: skipn n stack)).
  (** 419-435 BuildStringInterceptor around it; [count] is the low byte of the argument *)
  Fixpoint concatenation (real_result : text) (l : list obj) : outcome text :=
    match l with
    | [] => Done real_result
    | Txt t :: r =>
        concatenation (Text (symbolic real_result || symbolic t) (chars real_result ++ chars t)) r
    | _ :: _ => Fails CrossHairInternal
    end.
  Definition traced_build_string (n : nat) (stack : list obj) : outcome (list obj) :=
    let count := Nat.modulo n 256 in
    andthen (concatenation (Text false []) (rev (firstn count stack))) (fun real_result =>
      andthen (build_string n (repeat (Str []) count ++ skipn count stack)) (fun stack =>
        match stack with _ :: rest => Done (Txt real_result :: rest) | [] => Fails CrossHairInternal end)).

  (** An f-string as the compiler translates it: each part is pushed; then, unless there is
      just one, they are joined.  The values of fields and of their formats are given.  (With
      more than 30 parts the compiler calls join on a list instead: not here.) *)
  Inductive piece := Lit (s : str) | Field (value : obj) (flags : nat) (spec : option obj).
  Definition push_piece (p : piece) (stack : list obj) : outcome (list obj) :=
    match p with
    | Lit s => Done (Str s :: stack)
    | Field value flags None => traced_format_value flags (value :: stack)
    | Field value flags (Some spec) => traced_format_value (flags + 4) (spec :: value :: stack)
    end.
  Fixpoint push_pieces (l : list piece) (stack : list obj) : outcome (list obj) :=
    match l with [] => Done stack | p :: r => andthen (push_piece p stack) (push_pieces r) end.
  Definition traced_fstring (l : list piece) (stack : list obj) : outcome (list obj) :=
    andthen (push_pieces l stack) (fun stack =>
      if Nat.eqb (length l) 1 then Done stack else traced_build_string (length l) stack).
End FString.
