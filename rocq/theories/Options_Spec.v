(** What configuring CrossHair means *)
From Coq Require Import ZArith List Bool.
From Verif Require Import Py Str_Model Options_Model.
Import ListNotations.
Open Scope Z_scope.

(** The value that applies: the last one given, in order of increasing precedence *)
Fixpoint last_given {V} (l : list (option V)) : option V :=
  match l with
  | [] => None
  | x :: r => match last_given r with Some v => Some v | None => x end
  end.
(** The directives that apply to a scope: all those in its text for a class or function;
    for a module, those that start in the first column *)
Fixpoint applicable (is_module : bool) (l : list (Z * str)) : list str :=
  match l with
  | [] => []
  | (column, text) :: l =>
    if is_module then (if Z.eq_dec column 0 then text :: applicable is_module l else applicable is_module l)
    else text :: applicable is_module l
  end.
(** An assignment [key = value] in a directive *)
Definition word (ws : Z -> bool) (s : str) : Prop := s <> [] /\ Forall (fun c => ws c = false /\ c <> eq_ch) s.
Definition blank (ws : Z -> bool) (s : str) : Prop := Forall (fun c => ws c = true) s.
(** A directive that assigns: [key ws = ws value], one after the other with white space
    between *)
Inductive assigns (ws : Z -> bool) : str -> list (str * str) -> Prop :=
| assigns_end : forall b, blank ws b -> assigns ws b []
| assigns_cons : forall b k b1 b2 v r kvs,
    blank ws b -> word ws k -> blank ws b1 -> blank ws b2 -> word ws v ->
    (r = [] \/ exists c r', r = c :: r' /\ ws c = true) -> assigns ws r kvs ->
    assigns ws (b ++ k ++ b1 ++ [eq_ch] ++ b2 ++ v ++ r) ((k, v) :: kvs).
(** The assignments the settings give *)
Definition settings_of {V} (kvs : list (field * V)) (o : option_set V) : Prop :=
  NoDup (map fst kvs) /\ forall f v, o f = Some v <-> In (f, v) kvs.
(** a/b is a binary64 float that is not negative *)
Definition is_float (a b : Z) : Prop :=
  0 <= a /\ 0 < b /\ exists m j, 0 <= m < 2 ^ 53 /\ -1074 <= j /\
    if 0 <=? j then a = m * 2 ^ j * b else a * 2 ^ (- j) = m * b.
Definition frac_le (x y : Z * Z) : Prop := fst x * snd y <= fst y * snd x.
