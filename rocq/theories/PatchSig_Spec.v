(** Which calls Python accepts, and the parameters of the built-in functions of CPython 3.11. *)
From Coq Require Import String List Bool Arith.
Import ListNotations.
From Verif Require Import PatchSig_Model.
Open Scope string_scope.
Open Scope nat_scope.

Fixpoint index_of (k : string) (l : list (string * bool)) : option nat :=
  match l with [] => None | (n, _) :: l => if String.eqb n k then Some 0 else option_map S (index_of k l) end.
Definition named (k : string) (l : list (string * bool)) : bool := existsb (fun p => String.eqb (fst p) k) l.
Definition given (k : string) (kws : list string) : bool := existsb (String.eqb k) kws.
(** a call with n positional arguments and arguments for these keywords *)
Record call := Call { positional : nat; keywords : list string }.
(** the arguments are not too many, each keyword has a parameter that no positional argument has taken, and each required
    parameter gets a value *)
Definition accepts (s : sig) (c : call) : Prop :=
  (varargs s = true \/ positional c <= length (posonly s) + length (poskw s)) /\
  (forall k, In k (keywords c) ->
     match index_of k (poskw s) with
     | Some i => positional c <= length (posonly s) + i
     | None => named k (kwonly s) = true \/ varkw s = true
     end) /\
  (forall i k, nth_error (posonly s) i = Some (k, true) -> i < positional c) /\
  (forall i k, nth_error (poskw s) i = Some (k, true) -> length (posonly s) + i < positional c \/ In k (keywords c)) /\
  (forall k, In (k, true) (kwonly s) -> In k (keywords c)).

(** parameters without keywords *)
Definition slash (l : list (string * bool)) : sig := Sig l [] [] false false.
Definition native_sigs : list (string * sig) := [
  ("all", slash [req "iterable"]);
  ("any", slash [req "iterable"]);
  ("ascii", slash [req "obj"]);
  ("bytearray", plain [opt "source"; opt "encoding"; opt "errors"]);
  ("bytes", plain [opt "source"; opt "encoding"; opt "errors"]);
  ("chr", slash [req "i"]);
  ("dict", Sig [opt "iterable"] [] [] false true);
  ("eval", slash [req "source"; opt "globals"; opt "locals"]);
  ("format", slash [req "value"; opt "format_spec"]);
  ("getattr", slash [req "object"; req "name"; opt "default"]);
  ("hasattr", slash [req "obj"; req "name"]);
  ("hash", slash [req "obj"]);
  ("int", Sig [opt "x"] [opt "base"] [] false false);
  ("filter", slash [req "function"; req "iterable"]);
  ("float", slash [opt "x"]);
  ("frozenset", slash [opt "iterable"]);
  ("issubclass", slash [req "cls"; req "class_or_tuple"]);
  ("isinstance", slash [req "obj"; req "class_or_tuple"]);
  ("len", slash [req "obj"]);
  ("map", Sig [req "function"; req "iterable"] [] [] true false);
  ("memoryview", plain [req "object"]);
  ("ord", slash [req "c"]);
  ("pow", plain [req "base"; req "exp"; opt "mod"]);
  ("print", Sig [] [] [opt "sep"; opt "end"; opt "file"; opt "flush"] true false);
  ("range", slash [req "start"; opt "stop"; opt "step"]);
  ("repr", slash [req "obj"]);
  ("set", slash [opt "iterable"]);
  ("setattr", slash [req "obj"; req "name"; req "value"]);
  ("sorted", Sig [req "iterable"] [] [opt "key"; opt "reverse"] false false);
  ("type", Sig [req "object_or_name"; opt "bases"; opt "dict"] [] [] false true);
  ("int.from_bytes", Sig [] [req "bytes"; opt "byteorder"] [opt "signed"] false false);
  ("list.index", slash [req "self"; req "value"; opt "start"; opt "stop"]);
  ("dict.get", slash [req "self"; req "key"; opt "default"]);
  ("str", plain [opt "object"; opt "encoding"; opt "errors"]);
  ("str.join", slash [req "self"; req "iterable"]);
  ("str.__mod__", slash [req "self"; req "value"]);
  ("bytes.join", slash [req "self"; req "iterable"]);
  ("bytearray.join", slash [req "self"; req "iterable"]);
  ("str.format", Sig [req "self"] [] [] true true);
  ("str.format_map", slash [req "self"; req "mapping"]);
  ("str.startswith", slash [req "self"; req "prefix"; opt "start"; opt "end"]);
  ("str.__contains__", slash [req "self"; req "key"])
].
Fixpoint sig_of (f : string) (l : list (string * sig)) : option sig :=
  match l with [] => None | (n, s) :: l => if String.eqb n f then Some s else sig_of f l end.
(** functions with keywords that their patches do not have *)
Definition with_lost_keywords : list string := ["bytearray"; "bytes"; "dict"; "memoryview"; "type"; "int.from_bytes"; "str"].
