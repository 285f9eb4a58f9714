(* Layers of replacements. *)
From Coq Require Import List Bool Arith.
From Verif Require Import Patch_Model.
Import ListNotations.

(** For each function, its replacements in force, latest first. *)
Definition layers := nat -> list nat.
Definition none : layers := fun _ => [].
Definition push (s : layers) (f g : nat) : layers := fun h => if Nat.eqb h f then g :: s h else s h.
Definition drop (s : layers) (f : nat) : layers := fun h => if Nat.eqb h f then tl (s h) else s h.

Section Code.
  Variable code : nat -> nat.
  (** A call of [f] from code [c]: from one of the layers it goes to the layer below, and to
      [f] itself from the lowest; from anywhere else, to the topmost layer. *)
  Fixpoint below (c f : nat) (l : list nat) : option nat :=
    match l with
    | [] => None
    | g :: r => if Nat.eqb (code g) c then Some (hd f r) else below c f r
    end.
  Definition goes_to (s : layers) (c f : nat) : nat :=
    match below c f (s f) with Some g => g | None => hd f (s f) end.

  (** Replacements of several functions at once; what is undone is what is on top. *)
  Fixpoint pushes (s : layers) (l : list (nat * nat)) : layers :=
    match l with [] => s | (f, g) :: r => pushes (push s f g) r end.
  Fixpoint drops (s : layers) (l : list (nat * nat)) : layers :=
    match l with [] => s | (f, _) :: r => drops (drop s f) r end.
  Fixpoint on_top (s : layers) (l : list (nat * nat)) : Prop :=
    match l with [] => True | (f, g) :: r => hd_error (s f) = Some g /\ on_top (drop s f) r end.
  (** New replacements have code that no layer of the function has yet, and are not the
      function itself. *)
  Fixpoint fresh (s : layers) (l : list (nat * nat)) : Prop :=
    match l with
    | [] => True
    | (f, g) :: r => g <> f /\ ~ In (code g) (map code (s f)) /\ fresh (push s f g) r
    end.
  Fixpoint history (s : layers) (ops : list op) : Prop :=
    match ops with
    | [] => True
    | Add l :: ops => fresh s l /\ history (pushes s l) ops
    | Pop l :: ops => on_top s l /\ history (drops s l) ops
    end.
  Fixpoint after (s : layers) (ops : list op) : layers :=
    match ops with
    | [] => s
    | Add l :: ops => after (pushes s l) ops
    | Pop l :: ops => after (drops s l) ops
    end.
End Code.
