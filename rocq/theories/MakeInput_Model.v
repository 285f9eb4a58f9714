(** Model of how values of built-in types are made for arguments: libimpl/builtinslib.py
    make_union_choice 4621-4628, make_dictionary 4662-4677 (keys that use the heap), make_float
    4680-4699, make_tuple 4702-4714 and make_range 4717-4720.

    Items of uniform tuples are made one by one, as for types that use the heap.  The early
    realization of 4631-4659 changes no value.  CROSSHAIR_ONLY_FINITE_FLOATS is not set.

    What the solver and the search tree choose on a path is a list of draws, used up in the
    order in which the values are made. *)
From Coq Require Import QArith Qabs ZArith List Bool.
From Verif Require Import FloatPrec_Model.
Import ListNotations.
Open Scope Z_scope.

Inductive ty :=
| TInt | TBool | TFloat | TRange
| TTuple (ts : list ty)        (* Tuple[a, b]; Tuple[()] *)
| TUniform (t : ty)            (* Tuple[a, ...] *)
| TUnion (ts : list ty)
| TDict (k v : ty).
Inductive value :=
| VInt (z : Z) | VBool (b : bool) | VFloat (f : fp) | VRange (start stop step : Z)
| VTuple (vs : list value) | VDict (kvs : list (value * value)).
(** A number, a branch of the tree, a real or a double, or a length, that the solver gives *)
Inductive draw := DInt (z : Z) | DFork (b : bool) | DReal (q : Q) | DDouble (f : fp) | DLen (n : nat).

(** A value and the draws left; a path that is ignored; draws that no path has *)
Inductive out (A : Type) := Got (a : A) (rest : list draw) | Ignored | NoPath.
Arguments Got {A}. Arguments Ignored {A}. Arguments NoPath {A}.
Definition andthen {A B} (o : out A) (f : A -> list draw -> out B) : out B :=
  match o with Got a ds => f a ds | Ignored => Ignored | NoPath => NoPath end.
Definition take_int (ds : list draw) : out Z := match ds with DInt z :: ds => Got z ds | _ => NoPath end.
Definition take_fork (ds : list draw) : out bool := match ds with DFork b :: ds => Got b ds | _ => NoPath end.
Definition take_len (ds : list draw) : out nat := match ds with DLen n :: ds => Got n ds | _ => NoPath end.

(** A real as a float: there is only one zero *)
Definition of_real (q : Q) : fp := FFin (negb (Qle_bool 0 q)) (Qabs q).
(** 4680-4699; [real] is the representation chosen for all floats of the path (424-459
    ModelingDirector, a fork that takes either, 4611) *)
Definition make_float (real : bool) (ds : list draw) : out fp :=
  if real then
    andthen (take_fork ds) (fun finite ds =>
    if finite then match ds with DReal q :: ds => Got (of_real q) ds | _ => NoPath end
    else andthen (take_fork ds) (fun isnan ds =>
    if isnan then Got FNaN ds
    else andthen (take_fork ds) (fun neginf ds => Got (FInf neginf) ds)))
  else match ds with DDouble f :: ds => Got f ds | _ => NoPath end.
(** 4717-4720 *)
Definition make_range (ds : list draw) : out value :=
  andthen (take_int ds) (fun step ds =>
  if step =? 0 then NoPath
  else andthen (take_int ds) (fun start ds =>
       andthen (take_int ds) (fun stop ds => Got (VRange start stop step) ds))).
(** The items of a sequence of a given length *)
Fixpoint make_many {A} (make : list draw -> out A) (n : nat) (ds : list draw) : out (list A) :=
  match n with
  | O => Got [] ds
  | S n => andthen (make ds) (fun a ds => andthen (make_many make n ds) (fun r ds => Got (a :: r) ds))
  end.

Section Keys.
(** == of two keys of a dictionary *)
Variable same : value -> value -> bool.
(** set(...) of keys *)
Fixpoint set_of (seen : list value) (ks : list value) : list value :=
  match ks with
  | [] => seen
  | k :: ks => if existsb (fun o => same o k) seen then set_of seen ks else set_of (seen ++ [k]) ks
  end.
(** 4672-4673; the check is made when the path is over, here as soon as the keys are known *)
Definition keys_unique (kvs : list (value * value)) : bool :=
  Nat.eqb (length (set_of [] (map fst kvs))) (length kvs).

Fixpoint make (real : bool) (t : ty) (ds : list draw) : out value :=
  match t with
  | TInt => andthen (take_int ds) (fun z ds => Got (VInt z) ds)
  | TBool => andthen (take_fork ds) (fun b ds => Got (VBool b) ds)
  | TFloat => andthen (make_float real ds) (fun f ds => Got (VFloat f) ds)
  | TRange => make_range ds
  | TTuple ts =>                                     (* 4707-4714 *)
      andthen
        ((fix each (ts : list ty) (ds : list draw) : out (list value) :=
            match ts with
            | [] => Got [] ds
            | t :: ts => andthen (make real t ds) (fun v ds => andthen (each ts ds) (fun r ds => Got (v :: r) ds))
            end) ts ds)
        (fun vs ds => Got (VTuple vs) ds)
  | TUniform t =>                                    (* 4705-4706 *)
      andthen (take_len ds) (fun n ds => andthen (make_many (make real t) n ds) (fun vs ds => Got (VTuple vs) ds))
  | TUnion ts =>                                     (* 4621-4628 *)
      (fix choose (ts : list ty) (ds : list draw) : out value :=
         match ts with
         | [] => NoPath
         | [t] => make real t ds
         | t :: ts => andthen (take_fork ds) (fun b ds => if b then make real t ds else choose ts ds)
         end) ts ds
  | TDict k v =>                                     (* 4662-4676 *)
      andthen (take_len ds) (fun n ds =>
      andthen (make_many (fun ds => andthen (make real k ds) (fun a ds =>
                                    andthen (make real v ds) (fun b ds => Got (a, b) ds))) n ds)
              (fun kvs ds => if keys_unique kvs then Got (VDict kvs) ds else Ignored))
  end.
End Keys.
