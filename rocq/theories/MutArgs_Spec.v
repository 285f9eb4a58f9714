(** What "post[x, y]" declares: only x and y may differ after the call. *)
From Coq Require Import ZArith List Bool.
Import ListNotations.
From Verif Require Import MutArgs_Model.

Definition arguments := list (Z * value).
Definition has (a : arguments) (name : Z) (v : value) : Prop := In (name, v) a.
(** nothing but the named arguments differs *)
Definition kept (mutable : list Z) (old new : arguments) : Prop :=
  forall name o v, has old name o -> has new name v -> ~ In name mutable -> o = v.
(** values for which == tells all differences: no booleans next to numbers; not-a-number only within lists *)
Inductive plain : value -> Prop :=
| plain_num z : plain (Num z)
| plain_list l : (forall x, In x l -> plain x \/ exists i, x = NaN i) -> plain (Lst l).
