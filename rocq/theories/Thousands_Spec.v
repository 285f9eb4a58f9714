(** Thousands separators: what is asked of a grouped number, with no regard to how it is made. *)
From Coq Require Import ZArith List Bool.
From Verif Require Import Thousands_Model.
Import ListNotations.
Open Scope Z_scope.

(** locale.localeconv: the lengths of the groups from the right; a final 0 repeats the length before
    it, a final CHAR_MAX ends the grouping *)
Inductive length_at : list Z -> nat -> option Z -> Prop :=
| LNone : forall i, length_at [] i None
| LGiven : forall l x i g, nth_error l i = Some g -> length_at (l ++ [x]) i (Some g)
| LAgain : forall l g i, (length l < i)%nat -> length_at (l ++ [g; 0]) i (Some g)
| LEnd : forall l i, (length l <= i)%nat -> length_at (l ++ [127]) i None.
(** The groups of a number, the rightmost first: all but the leftmost are as long as asked, and that
    one has at least a digit and at most as many *)
Inductive grouped (grouping : list Z) : nat -> list text -> Prop :=
| GLast : forall i g n, length_at grouping i n -> g <> [] ->
    (forall m, n = Some m -> Z.of_nat (length g) <= m) -> grouped grouping i [g]
| GMore : forall i g r m, length_at grouping i (Some m) -> Z.of_nat (length g) = m ->
    grouped grouping (S i) r -> grouped grouping i (g :: r).
(** How wide groups are with separators of [sep] characters between them *)
Fixpoint width (sep : Z) (gs : list text) : Z :=
  match gs with [] => 0 | [g] => Z.of_nat (length g) | g :: r => Z.of_nat (length g) + sep + width sep r end.
(** ... and would be without the leftmost digit *)
Fixpoint shorter (sep : Z) (gs : list text) : Z :=
  match gs with
  | [] => 0
  | [g] => Z.of_nat (length g) - 1
  | [g; [_]] => Z.of_nat (length g)
  | g :: r => Z.of_nat (length g) + sep + shorter sep r
  end.
