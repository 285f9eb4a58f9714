(** Model of the names of generated tests: crosshair/path_cover.py
    output_pytest_paths 182-209, and of what is written in them. *)
From Coq Require Import List Bool ZArith String Ascii DecimalString.
From Verif Require Import FlexEq_Model.
Import ListNotations.
Open Scope string_scope.

(** fn_name.replace(".", "_"), 190 *)
Fixpoint underscored (s : string) : string :=
  match s with
  | EmptyString => EmptyString
  | String c r => String (if Ascii.eqb c "."%char then "_"%char else c) (underscored r)
  end.
(** str(n) *)
Definition str_of (n : nat) : string := NilZero.string_of_uint (Nat.to_uint n).
(** 192, 194: the name of the test for the path at [idx] *)
Definition test_name (fn : string) (idx : nat) : string :=
  "test_" ++ underscored fn ++ (if Nat.eqb idx 0 then "" else "_" ++ str_of (idx + 1)).
(** 191-206: the tests of one function with [n] paths, and of all functions (main.py
    743-776: the lines of all of them go to the same file). *)
Definition test_names (fn : string) (n : nat) : list string := map (test_name fn) (seq 0 n).
Definition file_names (fns : list (string * nat)) : list string :=
  List.concat (map (fun f => test_names (fst f) (snd f)) fns).

(** 195-204: what a test says.  [WReturns v]: "assert f(...) == v"; [WRaises ty]: "with
    pytest.raises(ty, ...)". *)
Inductive written := WReturns (v : val) | WRaises (ty : Z).
Definition written_for (ret : val) (exc : option Z) : written :=
  match exc with None => WReturns ret | Some ty => WRaises ty end.
