(** Encoding with ascii or latin-1, a character at a time. *)
From Coq Require Import ZArith List Bool.
From Verif Require Import Py.
Import ListNotations.
Local Open Scope Z_scope.

(** What a character becomes; None if its encoding fails. *)
Definition encoded (limit : Z) (handler : Z -> option (list Z)) (c : Z) : option (list Z) :=
  if c <? limit then Some [c] else handler c.

(** What a text becomes. *)
Fixpoint one_shot (limit : Z) (handler : Z -> option (list Z)) (s : list Z) : res (list Z) :=
  match s with
  | [] => Ok []
  | c :: r =>
      match encoded limit handler c with
      | None => Err UnicodeError
      | Some b => do bs <- one_shot limit handler r; Ok (b ++ bs)
      end
  end.

(** What the incremental encoder of the standard library gives for each piece: these
    encodings keep nothing back. *)
Fixpoint reference (limit : Z) (handler : Z -> option (list Z)) (pieces : list (list Z))
  : res (list (list Z)) :=
  match pieces with
  | [] => Ok []
  | p :: ps =>
      do b <- one_shot limit handler p;
      do bs <- reference limit handler ps;
      Ok (b :: bs)
  end.

Definition encodable (limit : Z) (s : list Z) : Prop := forall c, In c s -> c < limit.
