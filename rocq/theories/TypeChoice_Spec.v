(* Subclasses, and how likely a choice is. *)
From Coq Require Import String.
From Coq Require Import QArith List Bool Arith.
From Verif Require Import Py TypeChoice_Model.
Import ListNotations.

(** Python's subclass relation among classes with [cs]: reflexive, transitive, from the bases *)
Inductive subclass (cs : classes) : nat -> nat -> Prop :=
  | subclass_refl : forall c, subclass cs c c
  | subclass_base : forall c b a, In b (c_bases (cs c)) -> subclass cs b a -> subclass cs c a.
(** a module or package that is ignored, or a module in such a package *)
Definition ignored_module (m : string) : Prop :=
  exists r, In r ["crosshair"; "z3"; "hypothesis"; "pdb"; "pkg_resources"; "pytest"; "py"; "numpy"]%string /\
    (m = r \/ exists rest, m = (r ++ "." ++ rest)%string).
(** a class can be seen and copied: it is a member of a module that is not ignored, has a hash
    and does not bring its own copying *)
Definition usable (c : cls) : Prop :=
  c_hashable c = true /\
  (exists m, In m (c_modules c) /\ ~ ignored_module m) /\
  forall n, In n (c_names c) -> ~ In n ["__copy__"; "__deepcopy__"; "__reduce_ex__"; "__reduce__"]%string.
(** the classes' bases are older *)
Definition well_founded_classes (cs : classes) (all : list nat) : Prop :=
  exists rank : nat -> nat, forall c b, In c all -> In b (c_bases (cs c)) -> (rank b < rank c)%nat.

(** the chance that independent draws, each with its probability, stop at place [i] *)
Fixpoint chance (ps : list Q) (i : nat) : Q :=
  match ps, i with
  | [], _ => 0
  | p :: _, O => p
  | p :: r, S i => ((1 - p) * chance r i)%Q
  end.

(** [c] comes from [a] through classes in memory that are all usable *)
Inductive usable_subclass (cs : classes) (all : list nat) : nat -> nat -> Prop :=
  | us_refl : forall c, In c all -> usable (cs c) -> usable_subclass cs all c c
  | us_base : forall c b a, In c all -> usable (cs c) -> In b (c_bases (cs c)) -> usable_subclass cs all b a ->
      usable_subclass cs all c a.
