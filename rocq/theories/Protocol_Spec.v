(** What CPython's len, hash, repr, sorted and setattr do. *)
From Coq Require Import ZArith List Bool.
Import ListNotations.
From Verif Require Import Py Protocol_Model.
Open Scope Z_scope.

Definition maxsize : Z := 2 ^ 63 - 1.
(** len: the __len__ of the class; its result is turned into an int that is not negative and not too large *)
Definition py_len (o : object) : res Z :=
  match class_len o with
  | None => Err TypeError
  | Some (Err e) => Err e
  | Some (Ok v) =>
      do z <- match v with Int z => Ok z | Bool b => Ok (if b then 1 else 0) | Index z => Ok z | _ => Err TypeError end;
      if z <? 0 then Err ValueError else if maxsize <? z then Err OverflowError else Ok z
  end.
(** hash: an int beyond 64 bits is reduced as the hash of an int is; -1 is an error mark of C and becomes -2 *)
Definition hash_modulus : Z := 2 ^ 61 - 1.
Definition reduce_hash (z : Z) : Z :=
  let h := if (- 2 ^ 63 <=? z) && (z <=? maxsize) then z else Z.sgn z * (Z.abs z mod hash_modulus) in
  if h =? -1 then -2 else h.
Definition py_hash (o : object) : res Z :=
  match class_hash o with
  | None => Err TypeError
  | Some (Err e) => Err e
  | Some (Ok (Int z)) => Ok (reduce_hash z)
  | Some (Ok (Bool b)) => Ok (if b then 1 else 0)
  | Some (Ok _) => Err TypeError
  end.
Definition py_repr (o : object) : res (list Z) :=
  match class_repr o with Err e => Err e | Ok (Text s) => Ok s | Ok _ => Err TypeError end.
(** what iter() runs over: the __iter__ of the class, or the items of __getitem__ *)
Definition py_items (o : object) : res (list Z) :=
  match class_iter o with
  | Some (Err e) => Err e
  | Some (Ok (Items l)) => Ok l
  | Some (Ok _) => Err TypeError
  | None => match class_getitem o with Some l => Ok l | None => Err TypeError end
  end.
Definition py_setattr (attrs : attributes) (name : nat) (v : Z) : res attributes := Ok ((name, v) :: attrs).
