(** What an editor should show. *)
From Coq Require Import List Bool Arith.
From Verif Require Import Lsp_Model.
Import ListNotations.

(** A document is being edited from a change (or closed) until it is saved or opened. *)
Fixpoint being_edited (u : uri) (h : list event) : bool :=   (* the newest event first *)
  match h with
  | [] => false
  | (Change v | Close v) :: h => if Nat.eqb v u then true else being_edited u h
  | (Open v | Save v) :: h => if Nat.eqb v u then false else being_edited u h
  | _ :: h => being_edited u h
  end.
(** The editor says nothing about the document while the analysis thread holds an entry of it that it has still
    to treat. *)
Definition concerns (u : uri) (t : task) : bool := match t with TPublish v _ | TRestart v _ => Nat.eqb v u end.
Definition about (u : uri) (e : event) : bool := match e with Change v | Close v | Open v | Save v => Nat.eqb v u | _ => false end.
Fixpoint undisturbed (u : uri) (s : server) (h : list event) : Prop :=
  match h with
  | [] => True
  | e :: h => (about u e = true -> forall t, In t (jobs s) -> concerns u t = false) /\ undisturbed u (step s e) h
  end.

(** For whole actions: whether the document is being edited, and the messages reported since it was last opened,
    saved, or the analysis was restarted, oldest first. *)
Definition tell (u : uri) (k : bool * list (nat * message)) (a : action) : bool * list (nat * message) :=
  match a with
  | AChange v | AClose v => if Nat.eqb v u then (true, []) else k
  | AOpen v | ASave v => if Nat.eqb v u then (false, []) else k
  | AReport v line m => if Nat.eqb v u then (fst k, snd k ++ [(line, m)]) else k
  | APublish => k
  | ARestart => (fst k, [])
  end.
Definition told (u : uri) (h : list action) : bool * list (nat * message) := fold_left (tell u) h (false, []).
(** m is the message to show for a line: of the highest rank, the first such, and not less than a warning. *)
Definition to_show (reports : list (nat * message)) (line : nat) (m : message) : Prop :=
  2 <= rank m /\ exists before_ after, reports = before_ ++ (line, m) :: after /\
    (forall m', In (line, m') before_ -> rank m' < rank m) /\ (forall m', In (line, m') after -> rank m' <= rank m).
