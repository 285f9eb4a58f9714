(** How Python calls special methods: looked up in the classes only, bound as any attribute of
    a class, and the result checked. *)
From Coq Require Import ZArith List Bool.
From Verif Require Import Py Special_Model.
Import ListNotations.
Open Scope Z_scope.

(** The first class that has the name *)
Inductive finds : list (list (special * attr)) -> special -> attr -> Prop :=
| FHere n a pre post ds : ~ In n (map fst pre) -> finds ((pre ++ (n, a) :: post) :: ds) n a
| FNext n a d ds : ~ In n (map fst d) -> finds ds n a -> finds (d :: ds) n a.

(** The call of the bound method with [args] more arguments *)
Definition bound_call (a : attr) (args : nat) : res rv :=
  match a with
  | AFn f | AClass f => f (1 + args)%nat
  | AStatic f => f args
  | ANone => Err TypeError
  end.

(** What the builtins make of a method's result *)
Definition max_size := 2 ^ 63 - 1.
Definition prime := 2 ^ 61 - 1.
Definition len_result (r : rv) : res rv :=
  match r with
  | RInt z => if z <? 0 then Err ValueError else if max_size <? z then Err OverflowError else Ok (RInt z)
  | RBool b => Ok (RInt (if b then 1 else 0))
  | _ => Err TypeError
  end.
Definition text_result (r : rv) : res rv := match r with RStr s => Ok r | _ => Err TypeError end.
Definition not_minus_one (z : Z) : Z := if z =? -1 then -2 else z.
Definition hash_result (r : rv) : res rv :=
  match r with
  | RInt z => Ok (RInt (not_minus_one
      (if (- 2 ^ 63 <=? z) && (z <? 2 ^ 63) then z else Z.sgn z * (Z.abs z mod prime))))
  | RBool b => Ok (RInt (if b then 1 else 0))
  | _ => Err TypeError
  end.
(** The builtin, for an object with that method *)
Definition builtin_call (check : rv -> res rv) (a : attr) (args : nat) : res rv :=
  match bound_call a args with Ok r => check r | Err e => Err e end.
