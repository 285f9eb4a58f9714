(* C115, C116: comprehensions, membership, [not] and [is]. *)
From Coq Require Import ZArith List Bool Arith Lia.
From Verif Require Import Py Opcodes_Model Opcodes_Spec Opcodes_Proofs.
Import ListNotations.

(** Keys as Python wants them: == is an equivalence, equal keys hash alike, and every key
    equals itself. *)
Definition lawful {K} (eqb ident : K -> K -> bool) (hash : K -> Z) (hashable atomic : K -> bool) : Prop :=
  (forall a, eqb a a = true) /\ (forall a b, eqb a b = eqb b a) /\
  (forall a b c, eqb a b = true -> eqb b c = true -> eqb a c = true) /\
  (forall a b, eqb a b = true -> hash a = hash b) /\
  (forall a b, ident a b = true -> eqb a b = true) /\
  (forall a, atomic a = true -> hashable a = true).

(** C115.  The full claim: whatever keys and values, symbolic or not, a comprehension comes to,
    in any order and under any nesting of loops, the dictionary or set has the entries Python's
    has, in Python's order, or fails as Python's does.  Proved if every key equals itself. *)
Theorem dict_comprehension_partial : forall K W eqb ident hash hashable atomic,
  @lawful K eqb ident hash hashable atomic -> forall n (l : list (K * W)),
  dict_below n (py_dict K W eqb hashable l []) (dict_comprehension K W eqb ident hash hashable atomic (S n) l).
Proof.
  intros K W eqb ident hash hashable atomic (R & S & T & H & I & A) n l. unfold dict_comprehension.
  replace (Datatypes.S n - 1)%nat with n by lia. apply run_map_ok; auto. exact Logic.I.
Qed.
Theorem set_comprehension_partial : forall K W eqb ident hash hashable atomic symbolic,
  @lawful K eqb ident hash hashable atomic -> forall n (l : list K),
  set_below n (py_set K eqb hashable l []) (set_comprehension K W eqb ident hash hashable symbolic (S n) l).
Proof.
  intros K W eqb ident hash hashable atomic symbolic (R & S & T & H & I & A) n l. unfold set_comprehension.
  replace (Datatypes.S n - 1)%nat with n by lia. apply run_set_ok; auto.
Qed.
Theorem membership_partial : forall K W eqb ident hash hashable atomic symbolic,
  @lawful K eqb ident hash hashable atomic -> forall x,
  (forall l, contains_op K W eqb ident hash hashable symbolic x (RealSet K W l) = py_in K eqb hashable l x) /\
  (forall d, contains_op K W eqb ident hash hashable symbolic x (RealDict K W d) = py_in K eqb hashable (map fst d) x).
Proof. intros K W eqb ident hash hashable atomic symbolic (R & S & T & H & I & A) x. now apply contains_ok. Qed.

(** Numbers, of which those from 100 on are symbolic and stand for the number less 100, and
    those from 200 on are lists. *)
Definition num (a : nat) : nat := if Nat.ltb a 100 then a else if Nat.ltb a 200 then a - 100 else a.
Definition num_eqb (a b : nat) : bool := Nat.eqb (num a) (num b).
Definition num_hash (a : nat) : Z := Z.of_nat (num a).
Definition num_hashable (a : nat) : bool := Nat.ltb a 200.
Definition num_atomic (a : nat) : bool := Nat.ltb a 100.
Definition num_symbolic (a : nat) : bool := Nat.leb 100 a.
Lemma num_lawful : lawful num_eqb Nat.eqb num_hash num_hashable num_atomic.
Proof.
  unfold lawful, num_eqb, num_hash, num_hashable, num_atomic.
  split; [|split; [|split; [|split; [|split]]]]; intros.
  - apply Nat.eqb_refl.
  - apply Nat.eqb_sym.
  - rewrite Nat.eqb_eq in *. congruence.
  - rewrite Nat.eqb_eq in *. congruence.
  - rewrite Nat.eqb_eq in *. congruence.
  - rewrite Nat.ltb_lt in *. lia.
Qed.
Example dict_comprehension_example :
  dict_comprehension nat nat num_eqb Nat.eqb num_hash num_hashable num_atomic 2 [(1, 10); (2, 20); (101, 30); (103, 40); (3, 50)] =
    Ok [Junk _ _; Simple _ _ [(1, 30); (2, 20); (103, 50)]] /\
  py_dict nat nat num_eqb num_hashable [(1, 10); (2, 20); (101, 30); (103, 40); (3, 50)] [] = Ok [(1, 30); (2, 20); (103, 50)] /\
  dict_comprehension nat nat num_eqb Nat.eqb num_hash num_hashable num_atomic 1 [(1, 10); (205, 20)] = Err TypeError.
Proof. repeat split. Qed.
Example set_comprehension_example :
  set_comprehension nat nat num_eqb Nat.eqb num_hash num_hashable num_symbolic 1 [1; 2; 101; 103; 3; 4] = Ok [Shell _ _ [1; 2; 103; 4]].
Proof. reflexivity. Qed.
Example membership_example :
  contains_op nat nat num_eqb Nat.eqb num_hash num_hashable num_symbolic 103 (RealDict _ _ [(1, 0); (3, 0)]) = Ok true.
Proof. reflexivity. Qed.

(** A key that does not equal itself, such as a NaN: once a symbolic key has been seen, it is
    put in again each time. *)
Definition nan_eqb (a b : nat) : bool := num_eqb a b && negb (Nat.eqb a 99).
Theorem nan_key_refuted : exists l,
  py_dict nat nat (same nat nan_eqb Nat.eqb num_hash) num_hashable l [] = Ok [(103, 0); (99, 2)] /\
  dict_comprehension nat nat nan_eqb Nat.eqb num_hash num_hashable num_atomic 1 l = Ok [Simple _ _ [(103, 0); (99, 1); (99, 2)]].
Proof. exists [(103, 0); (99, 1); (99, 2)]. split; reflexivity. Qed.
Theorem nan_item_refuted : exists l,
  py_set nat (same nat nan_eqb Nat.eqb num_hash) num_hashable l [] = Ok [103; 99] /\
  set_comprehension nat nat nan_eqb Nat.eqb num_hash num_hashable num_symbolic 1 l = Ok [Shell _ _ [103; 99; 99]].
Proof. exists [103; 99; 99]. split; reflexivity. Qed.

(** C116.  The full claim: [not] gives the negation of the truth value Python would find, and
    [is] holds exactly if the operands stand for the same object.  Proved for symbolic objects
    that have a __bool__, and for operands other than symbolic types. *)
Theorem not_partial : forall t, (is_symbolic t = true -> bool_method t <> None) -> unary_not t = py_not t.
Proof. exact not_ok. Qed.
Theorem is_partial : forall a b, (forall i t, a <> SymType i t) -> (forall i t, b <> SymType i t) ->
  is_op a b = true <-> stands_for a = stands_for b.
Proof. exact is_ok. Qed.
Example not_example : unary_not (Thing true (Some (Ok false)) (Some (Ok 3))) = Ok true /\ unary_not (Thing false None (Some (Ok 0))) = Ok true.
Proof. split; reflexivity. Qed.
Example is_example : is_op (SymBool 1 true) (SymBool 2 true) = true /\ is_op (RealBool false) (SymBool 2 true) = false /\ is_op (SymBool 2 true) (Other 5) = false.
Proof. repeat split. Qed.

(** Symbolic bytes, memory views, deques and default dictionaries have a length but no
    __bool__: [not] raises AttributeError. *)
Theorem not_refuted : exists t, is_symbolic t = true /\ py_not t = Ok true /\ unary_not t = Err AttributeError.
Proof. exists (Thing true None (Some (Ok 0))). repeat split. Qed.
(** A symbolic type is never [is] the type it stands for. *)
Theorem is_refuted : exists a b, stands_for a = stands_for b /\ is_op a b = false.
Proof. exists (SymType 1 7), (RealType 7). split; reflexivity. Qed.

Print Assumptions dict_comprehension_partial.
Print Assumptions set_comprehension_partial.
Print Assumptions membership_partial.
Print Assumptions nan_key_refuted.
Print Assumptions nan_item_refuted.
Print Assumptions not_partial.
Print Assumptions is_partial.
Print Assumptions not_refuted.
Print Assumptions is_refuted.
