(** The parameters of the functions that replace built-in functions: crosshair/libimpl/builtinslib.py 4757-5400, as
    registered in 5455-5560 and 5580-5610.  Patches made by with_realized_args (core.py 357-368) take any arguments and
    pass them on. *)
From Coq Require Import String List Bool Arith.
Import ListNotations.
Open Scope string_scope.

(** parameters with their names; true: required *)
Record sig := Sig { posonly : list (string * bool); poskw : list (string * bool); kwonly : list (string * bool); varargs : bool; varkw : bool }.
Definition req (n : string) : string * bool := (n, true).
Definition opt (n : string) : string * bool := (n, false).
Definition plain (l : list (string * bool)) : sig := Sig [] l [] false false.
Definition star (l : list (string * bool)) : sig := Sig [] l [] true false.

Definition patch_sigs : list (string * sig) := [
  ("all", plain [req "items"]);                                    (* 4757 *)
  ("any", plain [req "items"]);                                    (* 4781 *)
  ("ascii", Sig [] [] [] true true);                               (* 4754 with_realized_args *)
  ("bytearray", star []);                                          (* 4808 *)
  ("bytes", star []);                                              (* 4822 *)
  ("chr", plain [req "i"]);                                        (* 4841 *)
  ("dict", Sig [] [opt "arg"] [] false true);                      (* 4850 *)
  ("eval", plain [req "expr"; opt "_globals"; opt "_locals"]);     (* 4884 *)
  ("format", plain [req "obj"; opt "format_spec"]);                (* 4892 *)
  ("getattr", plain [req "obj"; req "name"; opt "default"]);       (* 4905 *)
  ("hasattr", plain [req "obj"; req "name"]);                      (* 4916 *)
  ("hash", plain [req "obj"]);                                     (* 4924 *)
  ("int", plain [opt "val"; opt "base"]);                          (* 4936 *)
  ("filter", star [req "fn"]);                                     (* 4987 *)
  ("float", plain [opt "val"]);                                    (* 4997 *)
  ("frozenset", plain [opt "itr"]);                                (* 5019 *)
  ("issubclass", plain [req "subclass"; req "superclass"]);        (* 5028 *)
  ("isinstance", plain [req "obj"; req "types"]);                  (* 5057 *)
  ("len", plain [req "ls"]);                                       (* 5063 *)
  ("map", star [req "fn"]);                                        (* 5070 *)
  ("memoryview", plain [req "source"]);                            (* 5076 *)
  ("ord", plain [req "c"]);                                        (* 5083 *)
  ("pow", plain [req "base"; req "exp"; opt "mod"]);               (* 5092 *)
  ("print", Sig [] [] [] true true);                               (* 5098 *)
  ("range", star []);                                              (* 5102 *)
  ("repr", plain [req "obj"]);                                     (* 5106 *)
  ("set", plain [opt "itr"]);                                      (* 5115 *)
  ("setattr", plain [req "obj"; req "name"; req "value"]);         (* 5120 *)
  ("sorted", plain [req "ls"; opt "key"; opt "reverse"]);          (* 5131 *)
  ("type", star []);                                               (* 5147 *)
  ("int.from_bytes", Sig [] [req "b"; opt "byteorder"] [opt "signed"] false false); (* 5159 *)
  ("list.index", plain [req "self"; req "value"; opt "start"; opt "stop"]);         (* 5203 *)
  ("dict.get", plain [req "self"; req "key"; opt "default"]);      (* 5230 *)
  ("str", star []);                                                (* 5279 *)
  ("str.join", plain [req "self"; req "itr"]);                     (* 5290 *)
  ("str.__mod__", plain [req "self"; req "other"]);                (* 5294 *)
  ("bytes.join", plain [req "self"; req "itr"]);                   (* 5305 *)
  ("bytearray.join", plain [req "self"; req "itr"]);               (* 5309 *)
  ("str.format", Sig [req "self"] [] [] true true);                (* 5313 *)
  ("str.format_map", plain [req "self"; req "map"]);               (* 5319 *)
  ("str.startswith", plain [req "self"; req "substr"; opt "start"; opt "end"]);     (* 5324 *)
  ("str.__contains__", plain [req "self"; req "other"])            (* 5341 *)
].
