(** C36: symbolic tuples held as an SMT array and a length *)
From Coq Require Import ZArith List Bool Lia.
From Verif Require Import Py Range_Spec PySeq_Spec SeqCmp_Spec ArrTuple_Model ArrTuple_Spec ArrTuple_Proofs.
Import ListNotations.
Open Scope Z_scope.

(** The items of the tuple are those of the array below the length ... *)
Theorem C36_items : forall A (t : arrtuple A), 0 <= alen A t ->
  Z.of_nat (length (contents A t)) = alen A t /\
  forall i, 0 <= i < alen A t -> nth_error (contents A t) (Z.to_nat i) = Some (arr A t i).
Proof.
  intros A t H. split; [exact (contents_len A t H)|]. intros i I. rewrite (contents_nth A t H i) by lia.
  destruct (Z.ltb_spec i (alen A t)); [reflexivity|lia].
Qed.
(** ... and indexing, for every integer, agrees with tuple indexing on them. *)
Theorem C36_getitem : forall A (t : arrtuple A), 0 <= alen A t -> forall i, getitem A t i = py_getitem (contents A t) i.
Proof. intros. now apply getitem_ok. Qed.
(** Full statement: every slice agrees with tuple slicing.  Proved for slices whose step is
    absent or 1; the others are refuted below. *)
Theorem C36_slice_partial : forall A (t : arrtuple A), 0 <= alen A t ->
  forall sl, sl_step sl = None \/ sl_step sl = Some 1 -> getslice A t sl = py_slice (contents A t) sl.
Proof. intros. now apply getslice_ok. Qed.
Theorem C36_slice_refuted :
  (exists t sl, 0 <= alen Z t /\ sl_step sl = Some 2 /\ getslice Z t sl = Ok [0; 1; 2] /\ py_slice (contents Z t) sl = Ok [0; 2]) /\
  (exists t sl, 0 <= alen Z t /\ sl_step sl = Some (-1) /\ getslice Z t sl = Ok [0; 1; 2] /\ py_slice (contents Z t) sl = Ok [2; 1; 0]) /\
  (exists t sl, 0 <= alen Z t /\ sl_step sl = Some 0 /\ getslice Z t sl = Ok [0; 1; 2] /\ py_slice (contents Z t) sl = Err ValueError).
Proof.
  split; [|split].
  - exists (mkArr Z (fun i => i) 3), (mkSl None None (Some 2)). vm_compute. repeat split; congruence.
  - exists (mkArr Z (fun i => i) 3), (mkSl None None (Some (-1))). vm_compute. repeat split; congruence.
  - exists (mkArr Z (fun i => i) 3), (mkSl None None (Some 0)). vm_compute. repeat split; congruence.
Qed.
(** index gives the first position in the window, and ValueError when there is none. *)
Theorem C36_index : forall A (t : arrtuple A), 0 <= alen A t ->
  forall eqb, (forall x y, eqb x y = true <-> x = y) ->
  forall x a b, index_spec (contents A t) x a b (index A eqb t x a b).
Proof. intros. now apply index_ok. Qed.
Theorem C36_contains : forall A (t : arrtuple A), 0 <= alen A t -> forall x, smt_contains A t x <-> In x (contents A t).
Proof. intros. now apply contains_ok. Qed.
Theorem C36_mul : forall A (t : arrtuple A), 0 <= alen A t -> forall k, mul A t k = Ok (py_repeat (contents A t) k).
Proof. intros. now apply mul_ok. Qed.
(** The four orderings are lexicographic, for items whose order is irreflexive. *)
Theorem C36_order : forall A (t : arrtuple A), 0 <= alen A t ->
  forall eqb, (forall x y, eqb x y = true <-> x = y) ->
  forall ltb, (forall x, ltb x x = false) ->
  forall other, let l := contents A t in let less := lex_lt (fun x y => ltb x y = true) in
  (lt_ A eqb ltb t other = true <-> less l other) /\ (le_ A eqb ltb t other = true <-> less l other \/ l = other) /\
  (gt_ A eqb ltb t other = true <-> less other l) /\ (ge_ A eqb ltb t other = true <-> less other l \/ l = other).
Proof. intros A t H eqb Heq ltb Hirr other. cbv zeta. apply (cmp_ok A t H eqb Heq ltb); auto. Qed.
(** Equality with another iterable, and binding the tuple to known items, mean equal items. *)
Theorem C36_eq : forall A (t : arrtuple A), 0 <= alen A t ->
  forall eqb, (forall x y, eqb x y = true <-> x = y) ->
  forall other, (eq_iter A eqb t other = true <-> contents A t = other) /\ (unify A t other <-> contents A t = other).
Proof. intros A t H eqb Heq other. split; [now apply eq_iter_ok|now apply (unify_ok A t H eqb)]. Qed.
(** Full statement: two such tuples are equal exactly when their items are.  Only one
    direction holds: the arrays are compared beyond the length too. *)
Theorem C36_eq_arrays_partial : forall A t u, smt_eq A t u -> contents A t = contents A u.
Proof. exact smt_eq_contents. Qed.
Theorem C36_eq_arrays_refuted : exists t u, 0 <= alen Z t /\ contents Z t = contents Z u /\ ~ smt_eq Z t u.
Proof.
  exists (mkArr Z (fun _ => 0) 0), (mkArr Z (fun _ => 1) 0). split; [cbn; lia|]. split; [reflexivity|].
  intros [_ E]. specialize (E 0). discriminate.
Qed.

Definition sample : arrtuple Z := mkArr Z (fun i => i * i) 4.
Example C36_items_case : 0 <= alen Z sample /\ contents Z sample = [0; 1; 4; 9]. Proof. split; [cbn; lia|reflexivity]. Qed.
Example C36_getitem_case : getitem Z sample (-1) = Ok 9 /\ getitem Z sample 4 = Err IndexError. Proof. split; reflexivity. Qed.
Example C36_slice_case : getslice Z sample (mkSl (Some (-3)) (Some 9) None) = Ok [1; 4; 9]. Proof. reflexivity. Qed.
Example C36_index_case : index Z Z.eqb sample 4 (-3) 100 = Ok 2 /\ index Z Z.eqb sample 4 3 100 = Err ValueError. Proof. split; reflexivity. Qed.
Example C36_mul_case : mul Z sample 2 = Ok [0; 1; 4; 9; 0; 1; 4; 9]. Proof. reflexivity. Qed.
Example C36_order_case : lt_ Z Z.eqb Z.ltb sample [0; 1; 5] = true /\ gt_ Z Z.eqb Z.ltb sample [0; 1] = true. Proof. split; reflexivity. Qed.
Example C36_eq_case : eq_iter Z Z.eqb sample [0; 1; 4; 9] = true /\ eq_iter Z Z.eqb sample [0; 1; 4] = false. Proof. split; reflexivity. Qed.

Print Assumptions C36_items.
Print Assumptions C36_getitem.
Print Assumptions C36_slice_partial.
Print Assumptions C36_slice_refuted.
Print Assumptions C36_index.
Print Assumptions C36_contains.
Print Assumptions C36_mul.
Print Assumptions C36_order.
Print Assumptions C36_eq.
Print Assumptions C36_eq_arrays_partial.
Print Assumptions C36_eq_arrays_refuted.
