(** What a stub defines, in the order of its text. *)
From Coq Require Import List Bool Arith.
Import ListNotations.
From Verif Require Import StubFind_Model.

(** each definition with its dotted name *)
Record defn := Defn { d_path : list nat; d_sig : option nat; d_valid : bool }.
Definition under (n : nat) (d : defn) : defn := Defn (n :: d_path d) (d_sig d) (d_valid d).
Fixpoint defined (s : stmt) : list defn :=
  match s with
  | Def n sg v => [Defn [n] sg v]
  | Cls n b => map (under n) (flat_map defined b)
  | Cond _ (Some true) b _ => flat_map defined b
  | Cond _ (Some false) _ e => flat_map defined e
  | Cond _ None _ _ => []
  | Other => []
  end.
Definition named (path : list nat) (d : defn) : bool := if list_eq_dec Nat.eq_dec (d_path d) path then true else false.
(** the definitions of one function, their signatures, and whether all are complete *)
Definition definitions (stub : list stmt) (path : list nat) : list defn := filter (named path) (flat_map defined stub).
Definition signatures (l : list defn) : list nat := flat_map (fun d => match d_sig d with Some g => [g] | None => [] end) l.

(** every if tests the interpreter's version or platform *)
Fixpoint about_sys (s : stmt) : Prop :=
  let all := fix all (l : list stmt) : Prop := match l with [] => True | x :: l => about_sys x /\ all l end in
  match s with
  | Def _ _ _ | Other => True
  | Cls _ b => all b
  | Cond m t b e => m = true /\ t <> None /\ all b /\ all e
  end.
(** no function is defined partly inside and partly outside the ifs of a block *)
Definition is_cond (s : stmt) : bool := match s with Cond _ _ _ _ => true | _ => false end.
Definition apart (l : list stmt) : Prop := forall path,
  definitions (filter is_cond l) path = [] \/ definitions (filter (fun s => negb (is_cond s)) l) path = [].
Fixpoint tidy (s : stmt) : Prop :=
  let all := fix all (l : list stmt) : Prop := match l with [] => True | x :: l => tidy x /\ all l end in
  match s with
  | Def _ _ _ | Other => True
  | Cls _ b => apart b /\ all b
  | Cond _ _ b e => apart b /\ all b /\ apart e /\ all e
  end.
