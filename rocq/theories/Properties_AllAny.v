(** C53: all() and any() *)
From Coq Require Import List Bool Lia.
From Verif Require Import Py AllAny_Model.
Import ListNotations.

(** CPython: bool(item) for one item after the other, up to the first that decides. *)
Definition py_bool (x : item) : res bool := match x with Sym b | Bool b | Symbolic b => Ok b | Obj r => r end.
Fixpoint py_all (n : nat) (items : list item) (ends : option exc) : res bool * nat :=
  match items with
  | [] => (match ends with Some e => Err e | None => Ok true end, n)
  | x :: items => match py_bool x with Err e => (Err e, S n) | Ok true => py_all (S n) items ends | Ok false => (Ok false, S n) end
  end.
Fixpoint py_any (n : nat) (items : list item) (ends : option exc) : res bool * nat :=
  match items with
  | [] => (match ends with Some e => Err e | None => Ok false end, n)
  | x :: items => match py_bool x with Err e => (Err e, S n) | Ok false => py_any (S n) items ends | Ok true => (Ok true, S n) end
  end.

Lemma all_false pre n items : forallb (fun b => b) pre = false -> fst (m_all pre n items None) = Ok false.
Proof.
  revert pre n. induction items as [|[b|b|b|r] items IH]; intros pre n F; cbn.
  - destruct pre; [discriminate|]. now rewrite F.
  - apply IH. rewrite forallb_app, F. reflexivity.
  - destruct b; [now apply IH|reflexivity].
  - destruct b; [now apply IH|reflexivity].
  - destruct pre; [discriminate|]. now rewrite F.
Qed.
Lemma any_true pre n items : existsb (fun b => b) pre = true -> fst (m_any pre n items None) = Ok true.
Proof.
  revert pre n. induction items as [|[b|b|b|r] items IH]; intros pre n F; cbn.
  - destruct pre; [discriminate|]. now rewrite F.
  - apply IH. rewrite existsb_app, F. reflexivity.
  - destruct b; [reflexivity|now apply IH].
  - destruct b; [reflexivity|now apply IH].
  - destruct pre; [discriminate|]. now rewrite F.
Qed.
Lemma all_ok : forall items pre n, forallb (fun b => b) pre = true -> fst (m_all pre n items None) = fst (py_all n items None).
Proof.
  induction items as [|[b|b|b|r] items IH]; intros pre n F; cbn.
  - destruct pre; [reflexivity|now rewrite F].
  - destruct b; [apply IH; now rewrite forallb_app, F|]. apply all_false. now rewrite forallb_app, andb_false_r.
  - destruct b; [now apply IH|reflexivity].
  - destruct b; [now apply IH|reflexivity].
  - replace (match pre with [] => false | _ => negb (forallb (fun b => b) pre) end) with false by (rewrite F; now destruct pre).
    destruct r as [[]|e]; try reflexivity. now apply IH.
Qed.
Lemma any_ok : forall items pre n, existsb (fun b => b) pre = false -> fst (m_any pre n items None) = fst (py_any n items None).
Proof.
  induction items as [|[b|b|b|r] items IH]; intros pre n F; cbn.
  - destruct pre; [reflexivity|now rewrite F].
  - destruct b; [apply any_true; now rewrite existsb_app, orb_true_r|apply IH; now rewrite existsb_app, F].
  - destruct b; [reflexivity|now apply IH].
  - destruct b; [reflexivity|now apply IH].
  - replace (match pre with [] => false | _ => existsb (fun b => b) pre end) with false by (rewrite F; now destruct pre).
    destruct r as [[]|e]; try reflexivity. now apply IH.
Qed.
(** Full statement: for all iterables, all() and any() give CPython's result or exception and
    take as many items.  Proved: the result, or the exception of an item's __bool__, if the
    iterator itself does not raise. *)
Theorem C53_all_partial : forall items, fst (m_all [] 0 items None) = fst (py_all 0 items None).
Proof. intro items. now apply all_ok. Qed.
Theorem C53_any_partial : forall items, fst (m_any [] 0 items None) = fst (py_any 0 items None).
Proof. intro items. now apply any_ok. Qed.
(** all(x != 0 if i == 0 else 1 / x > 0 for i in range(2)) with x = 0 raises ... *)
Theorem C53_raises_refuted : exists items e, fst (m_all [] 0 items (Some e)) = Err e /\ fst (py_all 0 items (Some e)) = Ok false.
Proof. exists [Sym false], ZeroDivisionError. auto. Qed.
Theorem C53_any_raises_refuted : exists items e, fst (m_any [] 0 items (Some e)) = Err e /\ fst (py_any 0 items (Some e)) = Ok true.
Proof. exists [Sym true], ZeroDivisionError. auto. Qed.
(** ... and more items are taken from an iterator than CPython takes. *)
Theorem C53_consumed_refuted : exists items, (snd (py_all 0 items None) < snd (m_all [] 0 items None))%nat.
Proof. exists [Sym false; Sym true]. cbn. lia. Qed.

Example C53_case : m_all [] 0 [Sym true; Bool true; Obj (Ok true); Sym false; Obj (Err ValueError)] None = (Ok false, 5) /\
  py_all 0 [Sym true; Bool true; Obj (Ok true); Sym false; Obj (Err ValueError)] None = (Ok false, 4) /\
  fst (m_any [] 0 [Sym false; Obj (Err ValueError)] None) = Err ValueError.
Proof. auto. Qed.

Print Assumptions C53_all_partial.
Print Assumptions C53_any_partial.
Print Assumptions C53_raises_refuted.
Print Assumptions C53_any_raises_refuted.
Print Assumptions C53_consumed_refuted.
