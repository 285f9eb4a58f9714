(* What the functions are documented to give: as relations on lists, where functions do not raise,
   and the cache of functools.lru_cache. *)
From Coq Require Import ZArith List Bool.
From Verif Require Import Py Wrap_Model.
Import ListNotations.

Section Values.
  Context {V : Type}.
  Variables (truth : V -> bool) (eqb : V -> V -> bool).
  (** results of functions that do not raise *)
  Definition accumulated (f : V -> V -> V) (l out : list V) : Prop :=
    length out = length l /\
    forall n x, nth_error l n = Some x ->
      nth_error out n = Some (match n with O => x | S m => f (nth m out x) x end).
  Definition dropped (p : V -> bool) (l out : list V) : Prop :=
    exists skipped, l = skipped ++ out /\ Forall (fun x => p x = true) skipped /\ (forall x r, out = x :: r -> p x = false).
  Definition taken (p : V -> bool) (l out : list V) : Prop :=
    exists rest, l = out ++ rest /\ Forall (fun x => p x = true) out /\ (forall x r, rest = x :: r -> p x = false).
  (** Groups: they make up the list, none is empty, keys of a group are equal to its key, which is
      that of its first element, and the next group has another key *)
  Fixpoint grouped (key : V -> V) (l : list V) (gs : list (V * list V)) : Prop :=
    match gs with
    | [] => l = []
    | (k, g) :: gs =>
        exists x r rest, g = x :: r /\ k = key x /\ l = g ++ rest /\ Forall (fun y => eqb k (key y) = true) r /\
          (forall y r', rest = y :: r' -> eqb k (key y) = false) /\ grouped key rest gs
    end.

  (** functools.lru_cache without a limit: arguments are looked up by hash and ==; [hashable]
      says whether they have a hash *)
  Section Cache.
    Context {S : Type}.
    Variable hashable : V -> bool.
    Variable f : S -> V -> res V * S.
    Fixpoint cached (s : S) (cache : list (V * V)) (l : list V) : list (res V) :=
      match l with
      | [] => []
      | x :: l =>
          if hashable x then
            match find (fun e => eqb (fst e) x) cache with
            | Some (_, r) => Ok r :: cached s cache l
            | None => let '(r, s) := f s x in r :: cached s (match r with Ok v => (x, v) :: cache | Err _ => cache end) l
            end
          else Err TypeError :: cached s cache l
      end.
  End Cache.
End Values.
