(** Inputs of a function: every combination of values of their parts must be possible. *)
From Coq Require Import String Ascii List ZArith Bool.
From Verif Require Import VarNames_Model.
Import ListNotations.
Open Scope string_scope.
Open Scope list_scope.

(** The values a part of an input may have. *)
Definition value_set := Z -> Prop.
Definition between (lo hi : Z) : value_set := fun z => (lo <= z <= hi)%Z.
Definition every : value_set := fun _ => True.

(** The parts of a value of a type: for instance the hour, minute, second, microsecond
    and fold of a time. *)
Fixpoint parts (t : ty) : list value_set :=
  match t with
  | TInt => [every]
  | TBool => [between 0 1]
  | TDate => [between 1 3652059]
  | TTime => [between 0 23; between 0 59; between 0 59; between 0 999999; between 0 1]
  | TDatetime => [between 1 3652059; between 0 23; between 0 59; between 0 59; between 0 999999; between 0 1]
  | TTimedelta => [between 0 999999; between 0 86399; between (-999999999) 999999999]
  | TRange => [(fun z => z <> 0%Z); every; every]
  | TBytes n => (fun z => (0 <= z)%Z) :: repeat (between 0 255) n
  | TArray => [every; (fun z => (0 <= z)%Z)]
  | TTuple l => flat_map parts l
  | TTyped l => flat_map (fun kt => parts (snd kt)) l
  end.

(** The solver gives a value to each name and sort. *)
Definition assignment := string -> sort -> Z.
Definition read (env : assignment) (v : var) : Z := env (name v) (vsort v).
Definition obeys (z : Z) (c : constraint) : Prop :=
  match c with
  | AnyValue => True
  | Between lo hi => (lo <= z <= hi)%Z
  | AtLeast lo => (lo <= z)%Z
  | NonZero => z <> 0%Z
  end.
(** Values of all parts are possible if some assignment that obeys everything the solver
    is told gives these values. *)
Definition possible (vs : list var) (values : list Z) : Prop :=
  exists env : assignment, (forall v, In v vs -> obeys (read env v) (told v)) /\ map (read env) vs = values.

(** Every value of every part is possible whatever the others are. *)
Definition independent (vs : list var) (sets : list value_set) : Prop :=
  forall values, Forall2 (fun s z => s z) sets values -> possible vs values.

Definition starts_with (a b : string) : Prop := exists q, b = (a ++ q)%string.
(** No key continues another key. *)
Definition apart (a b : string) : Prop := ~ starts_with a b /\ ~ starts_with b a.

(** In each TypedDict, no key continues another. *)
Fixpoint good (t : ty) : Prop :=
  match t with
  | TTuple l => fold_right (fun t P => good t /\ P) True l
  | TTyped l => ForallOrdPairs apart (map fst l) /\ fold_right (fun kt P => good (snd kt) /\ P) True l
  | _ => True
  end.

Fixpoint has_underscore (s : string) : bool :=
  match s with "" => false | String c r => Ascii.eqb c "_" || has_underscore r end.
