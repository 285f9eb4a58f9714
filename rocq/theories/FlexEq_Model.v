(** Model of the comparison of results: crosshair/behavior_compare.py
    flexible_equal 117-150, _is_nan 109-114, ExecutionResult.__eq__ 162-171. *)
From Coq Require Import List Bool ZArith.
Import ListNotations.
Open Scope Z_scope.

(** The objects compared.  Numbers in dictionary keys and in sets stand for any
    hashable values whose == is that of the keys. *)
Inductive val :=
| VNum (z : Z)                           (* int, bool, ... *)
| VStr (s : list Z)                      (* str; bytes alike *)
| VNan (id : Z)                          (* a NaN; every object has its own [id] *)
| VObj (ty id : Z)                       (* type [ty] uses object.__eq__ *)
| VUnreal                                (* UNREALIZABLE, 68-79 *)
| VSeq (ty : Z) (l : list val)           (* list, tuple, deque...: sized, compared item by item *)
| VDict (l : list (Z * val))             (* in insertion order *)
| VSet (l : list Z)
| VIter (ty id : Z) (l : list val).      (* iterators and generators: iterable, unsized; the
                                            types all inherit object.__eq__ *)

Fixpoint get {A} (k : Z) (l : list (Z * A)) : option A :=
  match l with
  | [] => None
  | (j, v) :: r => if j =? k then Some v else get k r
  end.
Definition zs_eqb (a b : list Z) : bool :=
  if list_eq_dec Z.eq_dec a b then true else false.
Definition subset (a b : list Z) : bool := forallb (fun x => existsb (Z.eqb x) b) a.

(** 117-150.  [a is b] answers True at once (118); for the objects here the clauses below
    agree with that, except for UNREALIZABLE, NaN and VObj, where they also answer True. *)
Fixpoint flexible_equal (a b : val) : bool :=
  let items := fix items (l m : list val) : bool :=              (* 148, with len of 141 *)
    match l, m with
    | [], [] => true
    | x :: l, y :: m => flexible_equal x y && items l m
    | _, _ => false
    end in
  match a, b with
  | VUnreal, _ | _, VUnreal => true                              (* 120 *)
  | VObj t _, VObj u _ => t =? u                                 (* 122, 150 *)
  | VNan _, VNan _ => true                                       (* 125 *)
  | VIter t _ l, VIter u _ m => if t =? u then true else items l m   (* 122, then 127-133 *)
  | VSeq t l, VSeq u m => if t =? u then items l m else false    (* 134-148, 150 *)
  | VDict l, VDict m =>
      (Z.of_nat (length l) =? Z.of_nat (length m)) &&            (* 140 *)
      (fix entries (l : list (Z * val)) : bool :=                (* 143-146 *)
         match l with
         | [] => true
         | (k, v) :: r =>
             match get k m with
             | Some w => flexible_equal v w
             | None => match v with VUnreal => true | _ => false end   (* _MISSING *)
             end && entries r
         end) l
  | VNum x, VNum y => x =? y                                     (* 150 *)
  | VStr x, VStr y => zs_eqb x y
  | VSet x, VSet y => subset x y && subset y x
  | _, _ => false
  end.

(** ExecutionResult, 153-171 *)
Record result := mkR { r_ret : val; r_exc : option Z (* type *); r_args : val; r_kwargs : val }.
Definition result_eq (a b : result) : bool :=
  flexible_equal (r_ret a) (r_ret b) &&
  match r_exc a, r_exc b with
  | None, None => true
  | Some x, Some y => x =? y
  | _, _ => false
  end &&
  flexible_equal (r_args a) (r_args b) && flexible_equal (r_kwargs a) (r_kwargs b).
