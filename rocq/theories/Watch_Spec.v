(* What a user of the watch command expects, stated without the model's own functions
   where that matters: which files are watched, what a change is, and what the histories of
   a worker pool are. *)
From Coq Require Import ZArith List Bool.
From Verif Require Import Watch_Model.
Import ListNotations.
Local Open Scope Z_scope.

(* ------------------------------------------------------------------ *)
(** * Files *)

(** A directory never holds two entries of the same name. *)
Inductive well_formed : node -> Prop :=
| wf_file : forall m, well_formed (File m)
| wf_dir : forall l,
    NoDup (map fst l) ->
    (forall n x, In (n, x) l -> well_formed x) ->
    well_formed (Dir l).

(** [x] holds, at the relative path [p], the node [y]. *)
Inductive holds_at : node -> path -> node -> Prop :=
| ha_here : forall x, holds_at x [] x
| ha_down : forall l n x p y, In (n, x) l -> holds_at x p y -> holds_at (Dir l) (n :: p) y.

(** Names of Python source files that can be imported: they end with ".py", start with a
    letter or another character that may start an identifier, and are not "setup.py". *)
Definition source_name (isalpha isidentifier : Z -> bool) (n : name) : Prop :=
  (exists stem, n = stem ++ [46; 112; 121])
  /\ (exists c rest, n = c :: rest /\ (isalpha c = true \/ isidentifier c = true))
  /\ n <> [115; 101; 116; 117; 112; 46; 112; 121].

(** The watched files: those named on the command line, and the source files anywhere
    below a directory named there. *)
Inductive watched (isalpha isidentifier : Z -> bool) (paths : list path) (root : node)
  : path -> Z -> Prop :=
| w_named : forall p m,
    In p paths -> holds_at root p (File m) -> watched isalpha isidentifier paths root p m
| w_below : forall d l q n m,
    In d paths -> holds_at root d (Dir l) -> holds_at (Dir l) (q ++ [n]) (File m) ->
    source_name isalpha isidentifier n ->
    watched isalpha isidentifier paths root (d ++ q ++ [n]) m.

(** None of the given paths lies below another, and none is given twice. *)
Definition disjoint_targets (paths : list path) : Prop :=
  NoDup paths /\ forall p q, In p paths -> In (p ++ q) paths -> q = [].

(** Two moments of the file system look the same to the watcher. *)
Definition same_files (isalpha isidentifier : Z -> bool) (paths : list path) (r1 r2 : node) : Prop :=
  forall p m, watched isalpha isidentifier paths r1 p m <-> watched isalpha isidentifier paths r2 p m.

(* ------------------------------------------------------------------ *)
(** * Histories of a pool *)

Section Reach.
  Variable item : Type.
  Variable deadline : item -> Z.
  Variable max : nat.

  (** [reach subs s]: [s] can come about by submitting [subs] over any number of passes,
      each begun after the previous one ended, under any schedule. *)
  Inductive reach : list item -> state item -> Prop :=
  | r_new : forall t, reach [] (new_pool item t)
  | r_step : forall subs s e, reach subs s -> reach subs (step item deadline max e s)
  | r_pass : forall subs s items,
      reach subs s -> pc item s = PDone \/ pc item s = PIdle ->
      reach (subs ++ items) (begin_pass item items s).

  (** The results handed to the caller, in order *)
  Fixpoint results (l : list (option item)) : list item :=
    match l with
    | [] => []
    | Some r :: l' => r :: results l'
    | None :: l' => results l'
    end.
End Reach.
