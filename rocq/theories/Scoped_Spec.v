(** What a scoped variable means: the values of the blocks around, innermost first.
    [scopes c stack] gives the results of the reads, and whether [c] ended normally. *)
From Coq Require Import ZArith List Bool.
From Verif Require Import Scoped_Model.
Import ListNotations.

Fixpoint scopes (c : cmd) (stack : list (option Z)) : list (option Z) * bool :=
  match c with
  | Skip | AppendPath _ => ([], true)
  | Raise => ([], false)
  | Seq a b =>
      let (t1, ok) := scopes a stack in
      if ok then let (t2, ok2) := scopes b stack in (t1 ++ t2, ok2) else (t1, false)
  | Attempt a => (fst (scopes a stack), true)
  | Get default =>
      match stack, default with
      | v :: _, _ => ([v], true)
      | [], Some d => ([Some d], true)
      | [], None => ([], false)
      end
  | WithPath _ a | WithPure a => scopes a stack
  | WithAlternative _ r1 r2 a =>
      if r1 then let (t, ok) := scopes a stack in (t, ok && r2) else ([], false)
  | WithVar v reentrant a =>
      match reentrant, stack with
      | false, _ :: _ => ([], false)
      | _, _ => scopes a (v :: stack)
      end
  end.

(** No block binds the variable to None. *)
Fixpoint binds_values (c : cmd) : Prop :=
  match c with
  | Seq a b => binds_values a /\ binds_values b
  | Attempt a | WithPath _ a | WithPure a | WithAlternative _ _ _ a => binds_values a
  | WithVar v _ a => v <> None /\ binds_values a
  | _ => True
  end.

(** No exception can arise in [c]. *)
Fixpoint quiet (c : cmd) : Prop :=
  match c with
  | Skip | AppendPath _ => True
  | Raise => False
  | Get default => default <> None
  | Seq a b => quiet a /\ quiet b
  | Attempt a | WithPath _ a | WithPure a => quiet a
  | WithAlternative _ r1 r2 a => r1 = true /\ r2 = true /\ quiet a
  | WithVar _ reentrant a => reentrant = true /\ quiet a
  end.

(** Exceptions arise nowhere within a block of pure imports ... *)
Fixpoint pure_blocks_quiet (c : cmd) : Prop :=
  match c with
  | Seq a b => pure_blocks_quiet a /\ pure_blocks_quiet b
  | WithPure a => quiet a
  | Attempt a | WithPath _ a | WithAlternative _ _ _ a | WithVar _ _ a => pure_blocks_quiet a
  | _ => True
  end.

(** ... and no alternative fails to load. *)
Fixpoint alternatives_load (c : cmd) : Prop :=
  match c with
  | Seq a b => alternatives_load a /\ alternatives_load b
  | WithAlternative _ r1 _ a => r1 = true /\ alternatives_load a
  | Attempt a | WithPath _ a | WithPure a | WithVar _ _ a => alternatives_load a
  | _ => True
  end.
