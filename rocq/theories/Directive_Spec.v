(** Where directives may be: "in the body of a function, at the top level of a module, or in the
    __init__.py file of a package.  Lower level directives take precedence over higher level
    directives." (doc/source/contracts.rst 63-70) *)
From Coq Require Import ZArith List Bool.
From Verif Require Import Directive_Model.
Import ListNotations.
Open Scope Z_scope.

(** A comment that gives the directive [d]:  # crosshair : d  with white space allowed anywhere
    between the parts *)
Definition blank (ws : Z -> bool) (s : text) : Prop := Forall (fun c => ws c = true) s.
Definition trimmed (ws : Z -> bool) (d : text) : Prop :=
  (forall c r, d = c :: r -> ws c = false) /\ (forall c r, d = r ++ [c] -> ws c = false).
Definition gives (ws : Z -> bool) (c d : text) : Prop :=
  trimmed ws d /\ exists w1 w2 w3 w4, blank ws w1 /\ blank ws w2 /\ blank ws w3 /\ blank ws w4 /\
  c = [35] ++ w1 ++ [99; 114; 111; 115; 115; 104; 97; 105; 114] ++ w2 ++ [58] ++ w3 ++ d ++ w4.

(** The directives of some comments, in their order *)
Inductive directives (ws : Z -> bool) : list comment -> list text -> Prop :=
| DNone : directives ws [] []
| DOther : forall c cs ds, (forall d, ~ gives ws (said c) d) -> directives ws cs ds -> directives ws (c :: cs) ds
| DGives : forall c cs d ds, gives ws (said c) d -> directives ws cs ds -> directives ws (c :: cs) (d :: ds).

(** The comments at the top level of a file, and those in a function *)
Definition at_top (f : file) (c : comment) : Prop := In c (comments f) /\ around c = [].
Inductive chosen (P : comment -> Prop) : list comment -> list comment -> Prop :=
| CNone : chosen P [] []
| CSkip : forall c l r, ~ P c -> chosen P l r -> chosen P (c :: l) r
| CTake : forall c l r, P c -> chosen P l r -> chosen P (c :: l) (c :: r).
Definition top_directives (ws : Z -> bool) (f : file) (ds : list text) : Prop :=
  exists cs, chosen (fun c => around c = []) (comments f) cs /\ directives ws cs ds.
Definition body_directives (ws : Z -> bool) (f : file) (fn : Z) (ds : list text) : Prop :=
  exists cs, chosen (fun c => In fn (around c)) (comments f) cs /\ directives ws cs ds.

(** The names of the packages around a module, outermost first, and the module *)
Fixpoint prefixes (n : name) : list name :=
  match n with [] => [] | p :: r => [p] :: map (cons p) (prefixes r) end.
(** A module that is not a package contains no other, and the packages around a module have been
    imported *)
Definition imported (modules : name -> option file) (n : name) : Prop :=
  forall p, In p (prefixes n) -> exists f, modules p = Some f /\ (p <> n -> is_package f = true).
(** Comments start at the first column exactly at the top level *)
Definition well_placed (f : file) : Prop := forall c, In c (comments f) -> (col c = 0 <-> around c = []).
