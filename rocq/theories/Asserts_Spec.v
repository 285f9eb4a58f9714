(* What assert-based contracts should mean (doc/source/kinds_of_contracts.rst, "Assert-based
   Contracts"): the asserts a function starts with are preconditions; after them, every
   assert is expected to hold and no unexpected exception may be raised.  Written without
   line numbers deciding anything. *)
From Coq Require Import ZArith List Bool.
From Verif Require Import Asserts_Model.
Import ListNotations.
Local Open Scope Z_scope.

Section Spec.
  Variables (St V : Type).
  Notation stmt := (stmt St V).

  (** docstrings and asserts *)
  Definition is_leading (t : stmt) : Prop :=
    match t with SOther _ _ => False | _ => True end.
  Definition is_assert (t : stmt) : Prop :=
    match t with SAssert _ _ => True | _ => False end.

  (** [b] is a leading part [pre], with at least one assert, and the rest *)
  Definition splits (b pre rest : list stmt) : Prop :=
    b = pre ++ rest /\ Forall is_leading pre /\ Exists is_assert pre /\
    match rest with [] => True | t :: _ => ~ is_leading t end.

  (** How running statements can end: reaching their end, returning, raising at a line. *)
  Inductive ending := Ends (s : St) | Returns (v : V) | Raises (e : exc) (line : Z).

  Inductive runs : list stmt -> St -> ending -> Prop :=
  | RNil s : runs [] s (Ends s)
  | RString l r s x : runs r s x -> runs (SString l :: r) s x
  | RHolds l test r s s' x : test s = Holds s' -> runs r s' x -> runs (SAssert l test :: r) s x
  | RFails l test r s e k i : test s = Fails e k i -> runs (SAssert l test :: r) s (Raises e k)
  | RNext l run r s s' x : run s = Next s' -> runs r s' x -> runs (SOther l run :: r) s x
  | RReturn l run r s v : run s = Return v -> runs (SOther l run :: r) s (Returns v)
  | RRaise l run r s e k i : run s = Raise e k i -> runs (SOther l run :: r) s (Raises e k).

  (** the inputs do not satisfy the preconditions *)
  Definition unmet (pre : list stmt) (s : St) : Prop := exists l, runs pre s (Raises AssertionErr l).

  (** a call that has to be reported: the preconditions do not reject the inputs, and the
      call raises something not declared *)
  Definition faulty (b pre : list stmt) (expected : exc -> bool) (s : St) (e : exc) (l : Z) : Prop :=
    ~ unmet pre s /\ runs b s (Raises e l) /\ expected e = false.

  (** What the source text and the call look like: *)
  (** the name and file of the object analyzed are those its frames show (not so for a
      function behind a wrapper written in another file) *)
  Definition recognizable (f : func St V) : Prop :=
    fn_name f = co_name f /\ fn_file f = Some (co_file f).

  (** lines at which a statement can raise *)
  Definition raises_at (t : stmt) (l : Z) : Prop :=
    match t with
    | SAssert _ test => exists s e i, test s = Fails e l i
    | SString _ => False
    | SOther _ run => exists s e i, run s = Raise e l i
    end.

  (** the first statement after the leading asserts starts on a line of its own, and later
      statements come after it *)
  Definition laid_out (f : func St V) (pre rest : list stmt) : Prop :=
    match rest with
    | [] => False
    | t :: _ =>
        let start := first_line f + stmt_line t - 1 in
        (0 < start) /\
        (forall p l, In p pre -> raises_at p l -> 0 < l < start) /\
        (forall p l, In p rest -> raises_at p l -> start <= l)
    end.

  (** nothing below a statement of the function is another call of it *)
  Definition not_reentered (f : func St V) : Prop :=
    forall t s e l i, In t (body f) ->
      match t with
      | SAssert _ test => test s = Fails e l i
      | SString _ => False
      | SOther _ run => run s = Raise e l i
      end ->
      forall fr, In fr i -> ~ (fr_name fr = co_name f /\ fr_file fr = co_file f).
End Spec.

Arguments is_leading {St V}. Arguments is_assert {St V}. Arguments splits {St V}.
Arguments runs {St V}. Arguments Ends {St V}. Arguments Returns {St V}. Arguments Raises {St V}.
Arguments unmet {St V}. Arguments faulty {St V}. Arguments recognizable {St V}.
Arguments raises_at {St V}. Arguments laid_out {St V}. Arguments not_reentered {St V}.
