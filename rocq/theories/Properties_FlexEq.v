(** C67: when two results pass for the same. *)
From Coq Require Import List Bool ZArith Lia.
From Verif Require Import FlexEq_Model FlexEq_Spec FlexEq_Proofs.
Import ListNotations.
Open Scope Z_scope.

(** On values made of numbers, strings and containers the comparison is ==. *)
Theorem compares_like_python a b : wf a -> wf b -> plain a -> plain b ->
  (flexible_equal a b = true <-> PyEq a b).
Proof.
  intros W V P Q. destruct (plain_parts a P), (plain_parts b Q).
  rewrite alike_iff by auto. now apply plain_alike.
Qed.
(** What is == passes for the same. *)
Theorem equal_is_same a b : wf a -> wf b -> PyEq a b -> flexible_equal a b = true.
Proof. intros. now apply pyeq_flex. Qed.
Theorem same_as_itself a : wf a -> flexible_equal a a = true.
Proof. apply flex_refl. Qed.
(** If nothing had to be left unrealized, and there are no iterators in containers, exactly
    those values pass for the same that are meant to. *)
Theorem tolerance_exact_partial a b : wf a -> wf b -> realized a -> realized b -> no_iterators a ->
  (flexible_equal a b = true <-> Alike a b).
Proof. intros. now apply alike_iff. Qed.
(** Iterators are compared by contents - if they are of different types. *)
Theorem iterators_by_contents_partial t u i j l m : t <> u ->
  Forall wf l -> Forall wf m -> Forall realized l -> Forall realized m -> Forall no_iterators l ->
  (flexible_equal (VIter t i l) (VIter u j m) = true <-> Alike (VIter t i l) (VIter u j m)).
Proof.
  intros N Wl Wm Rl Rm Nl. rewrite flex_iter. apply Z.eqb_neq in N. rewrite N, items_iff.
  assert (Forall2 (fun x y => flexible_equal x y = true) l m <-> Forall2 Alike l m) as E.
  { revert m Wm Rm. induction l as [|x r IH]; intros [|y m] Wm Rm.
    1-3: split; intro H; auto; inversion H.
    inversion Wl; inversion Wm; inversion Rl; inversion Rm; inversion Nl; subst.
    split; intro H; inversion H; subst; constructor; try (apply IH; auto); now apply alike_iff. }
  rewrite E. split; intro H; [now constructor|now inversion H].
Qed.
Theorem same_symmetric_partial a b : wf a -> wf b -> realized a -> realized b -> no_iterators a -> no_iterators b ->
  flexible_equal a b = flexible_equal b a.
Proof.
  intros W V R S N M. apply eq_true_iff_eq. rewrite !alike_iff by auto. split; apply alike_sym; auto.
Qed.
Theorem results_compared a b :
  result_eq a b = true <->
  flexible_equal (r_ret a) (r_ret b) = true /\ r_exc a = r_exc b /\
  flexible_equal (r_args a) (r_args b) = true /\ flexible_equal (r_kwargs a) (r_kwargs b) = true.
Proof.
  unfold result_eq. rewrite !andb_true_iff.
  assert (match r_exc a, r_exc b with None, None => true | Some x, Some y => x =? y | _, _ => false end = true <-> r_exc a = r_exc b) as ->.
  { destruct (r_exc a), (r_exc b); rewrite ?Z.eqb_eq; split; intro H; try discriminate; auto; congruence. }
  tauto.
Qed.

Definition v1 := VDict [(1, VSeq 0 [VNum 2; VNan 1]); (3, VSet [4; 5])].
Definition v2 := VDict [(3, VSet [5; 4]); (1, VSeq 0 [VNum 2; VNan 2])].
Example tolerance_exact_example :
  wf v1 /\ wf v2 /\ realized v1 /\ realized v2 /\ no_iterators v1 /\ no_iterators v2 /\
  flexible_equal v1 v2 = true /\ flexible_equal v1 (VDict [(3, VSet [5; 4]); (1, VSeq 0 [VNum 2; VNum 2])]) = false.
Proof.
  assert (NoDup [1; 3] /\ NoDup [3; 1]) as [D1 D2].
  { split; repeat constructor; cbn; intuition discriminate. }
  cbn. repeat split; auto; discriminate.
Qed.
Example compares_like_python_example :
  plain (VDict [(1, VSeq 0 [VNum 2])]) /\ wf (VDict [(1, VSeq 0 [VNum 2])]) /\
  PyEq (VDict [(1, VSeq 0 [VNum 2])]) (VDict [(1, VSeq 0 [VNum 2])]).
Proof.
  assert (plain (VDict [(1, VSeq 0 [VNum 2])]) /\ wf (VDict [(1, VSeq 0 [VNum 2])])) as [P W].
  { cbn. repeat split; auto. repeat constructor. intros []. }
  split; [exact P|split; [exact W|apply compares_like_python; auto]].
Qed.
Example iterators_by_contents_example :
  flexible_equal (VIter 1 7 [VNum 11; VNan 0]) (VIter 2 8 [VNum 11; VNan 1]) = true /\
  flexible_equal (VIter 1 7 [VNum 11]) (VIter 2 8 [VNum 22]) = false.
Proof. split; reflexivity. Qed.

(** Two generators (or any two iterators of the same type) pass for the same whatever they
    give: the clause for types without an == of their own comes first. *)
Theorem iterators_by_contents_refuted :
  exists t i j l m, flexible_equal (VIter t i l) (VIter t j m) = true /\ ~ Alike (VIter t i l) (VIter t j m).
Proof.
  exists 1, 7, 8, [VNum 11], [VNum 22]. split; [reflexivity|]. intro H. inversion H; subst.
  match goal with K : Forall2 Alike _ _ |- _ => inversion K; subst end.
  match goal with K : Alike (VNum _) _ |- _ => inversion K end.
Qed.
(** With something unrealized in a dictionary the comparison is not symmetric: a missing key is
    noticed in one direction only. *)
Theorem same_symmetric_refuted :
  exists a b, wf a /\ wf b /\ flexible_equal a b = true /\ flexible_equal b a = false.
Proof.
  exists (VDict [(1, VUnreal)]), (VDict [(2, VNum 5)]). cbn. repeat split; auto; repeat constructor; intros [].
Qed.
(** Values of different types pass for the same if they are == (1 and True are one number here),
    and sameness is not transitive when things are left unrealized. *)
Theorem same_transitive_refuted :
  exists a b c, flexible_equal a b = true /\ flexible_equal b c = true /\ flexible_equal a c = false.
Proof. exists (VNum 1), VUnreal, (VNum 2). repeat split. Qed.

Print Assumptions compares_like_python.
Print Assumptions equal_is_same.
Print Assumptions same_as_itself.
Print Assumptions tolerance_exact_partial.
Print Assumptions iterators_by_contents_partial.
Print Assumptions same_symmetric_partial.
Print Assumptions results_compared.
Print Assumptions iterators_by_contents_refuted.
Print Assumptions same_symmetric_refuted.
Print Assumptions same_transitive_refuted.
