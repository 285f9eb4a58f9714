(** Model of how the variables of the solver that stand for the parts of an input are
    named: core.py gen_args 758-814, proxy_for_type 714-753, proxy_for_class 509-517
    (TypedDict), SymbolicFactory 592-629; statespace.py uniq 1176-1178; builtinslib.py
    make_tuple 4702-4714, make_range 4717-4720, SymbolicBoundedIntTuple 3049-3125,
    SymbolicArrayBasedUniformTuple.__init_var__ 2291-2298; datetimelib.py 2649-2720.
    In z3, two constants of the same name and sort are the same. *)
From Coq Require Import String Ascii List ZArith Bool Decimal DecimalString Hexadecimal HexadecimalString.
Import ListNotations.
Open Scope string_scope.
Open Scope list_scope.
Open Scope nat_scope.

(** str(n) and "{:x}".format(n) *)
Definition dec (n : nat) : string := DecimalString.NilEmpty.string_of_uint (Nat.to_uint n).
Definition hex (n : nat) : string := HexadecimalString.NilEmpty.string_of_uint (Nat.to_hex_uint n).

(** Types of inputs.  For bytes and str, [n] is how many items have been asked for. *)
Inductive ty :=
| TInt | TBool | TDate | TTime | TDatetime | TTimedelta | TRange
| TBytes (n : nat)
| TArray                                   (* a list or tuple of unknown length *)
| TTuple (l : list ty)                     (* of fixed length *)
| TTyped (l : list (string * ty)).         (* a TypedDict, with the keys that are present *)

Inductive sort := SInt | SBool | SArray.
(** What the solver is told about a variable. *)
Inductive constraint := AnyValue | Between (lo hi : Z) | AtLeast (lo : Z) | NonZero.
Record var := mkVar { name : string; vsort : sort; told : constraint }.

Definition int (n : string) (c : constraint) : var := mkVar n SInt c.

(** uniq: the counter is increased first.  The decisions made while an input is created
    (which keys are present, whether there is a time zone) also take numbers, which only
    makes the numbers larger; here there is no time zone. *)
Definition uniq (k : nat) : string * nat := (("_" ++ hex (S k))%string, S k).

Definition time_fields (v : string) : list var :=
  [int (v ++ "_hour") (Between 0 23); int (v ++ "_min") (Between 0 59); int (v ++ "_sec") (Between 0 59);
   int (v ++ "_usec") (Between 0 999999); int (v ++ "_fold") (Between 0 1)].
Definition date_ordinal (v : string) : var := int (v ++ "_ord") (Between 1 3652059).

Fixpoint items (v : string) (i n : nat) : list var :=
  match n with O => [] | S n => int (v ++ "@" ++ dec i) (Between 0 255) :: items v (S i) n end.

(** The variables of an input of type [t] named [v], and the counter afterwards. *)
Fixpoint create (t : ty) (v : string) (k : nat) : list var * nat :=
  match t with
  | TInt => ([int v AnyValue], k)
  | TBool => ([mkVar v SBool (Between 0 1)], k)
  | TDate => ([date_ordinal v], k)
  | TTime => (time_fields v, 3 + k)
  | TDatetime => (date_ordinal v :: time_fields v, 3 + k)
  | TTimedelta =>
      ([int (v ++ "_usec") (Between 0 999999); int (v ++ "_sec") (Between 0 86399);
        int (v ++ "_days") (Between (-999999999) 999999999)], k)
  | TRange =>
      let step := int (v ++ "_step") NonZero in
      let (a, k1) := uniq k in
      let (b, k2) := uniq k1 in
      ([step; int (v ++ "_start" ++ a) AnyValue; int (v ++ "_stop" ++ b) AnyValue], k2)
  | TBytes n => (int (v ++ "len") (AtLeast 0) :: items v 0 n, k)
  | TArray =>
      let (a, k1) := uniq k in
      let (b, k2) := uniq k1 in
      ([mkVar (v ++ "_map" ++ a) SArray AnyValue; int (v ++ "_len" ++ b) (AtLeast 0)], k2)
  | TTuple l =>
      (fix go (l : list ty) (i k : nat) : list var * nat :=
         match l with
         | [] => ([], k)
         | t :: r =>
             let (a, k1) := create t (v ++ "_at_" ++ dec i) k in
             let (b, k2) := go r (S i) k1 in
             (a ++ b, k2)
         end) l 0 k
  | TTyped l =>
      (fix go (l : list (string * ty)) (k : nat) : list var * nat :=
         match l with
         | [] => ([], k)
         | kt :: r =>
             let (a, k1) := create (snd kt) (v ++ "." ++ fst kt) k in
             let (b, k2) := go r k1 in
             (a ++ b, k2)
         end) l k
  end.

(** gen_args 758-814 *)
Fixpoint gen_args (params : list (string * ty)) (k : nat) : list var * nat :=
  match params with
  | [] => ([], k)
  | (p, t) :: r =>
      let (u, k0) := uniq k in
      let (a, k1) := create t (p ++ u) k0 in
      let (b, k2) := gen_args r k1 in
      (a ++ b, k2)
  end.
