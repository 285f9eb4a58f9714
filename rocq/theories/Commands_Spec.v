(** What the commands should do. *)
From Coq Require Import ZArith List Bool.
From Verif Require Import Cli_Model Commands_Model.
Import ListNotations.

(** A target that names one function with a signature. *)
Definition names_function (l : loading) : Prop :=
  exists f r, l = Loads (EMember (MFunc f) :: r) /\ f_callable f = true.

(** Loading ends in one of the ways the commands are prepared for. *)
Definition foreseen (l : loading) : Prop :=
  l = Fails ErrorDuringImport \/ exists e r, l = Loads (e :: r).

(** The functions and methods of a target, in the order of the source. *)
Definition member_functions (m : member) : list func :=
  match m with MFunc f => [f] | MClass fs => fs end.
Definition functions_of (e : entity) : list func :=
  match e with
  | EMember m => member_functions m
  | EModule ms => concat (map member_functions ms)
  end.
