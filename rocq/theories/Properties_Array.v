(* C112: arrays of integers. *)
From Coq Require Import ZArith List Bool Lia.
From Verif Require Import Py Range_Spec PySeq_Spec Seq_Model Seq_Spec SeqMut_Proofs SeqCmp_Model Array_Model Array_Spec Array_Proofs.
Import ListNotations.
Open Scope Z_scope.

(** Every array that is generated exists. *)
Theorem generated_arrays_exist : forall skip c items, make_array skip c items -> Forall (fun x => holds c x = true) items.
Proof.
  intros skip c items (lo & hi & P & F1 & F2).
  assert (E : bounds c = (lo, hi)).
  { unfold pick_code in P. cbn in P. repeat (destruct (skip _); [|now injection P as <- <- <-]). now injection P as <- <- <-. }
  rewrite Forall_forall in *. intros x I. apply in_bounds_holds. rewrite E. cbn. auto.
Qed.
(** Every array of one of six kinds is generated. *)
Theorem arrays_generated_partial : forall c items, small_or_longest c -> Forall (fun x => holds c x = true) items ->
  exists skip, make_array skip c items.
Proof.
  intros c items S F.
  set (n := match c with CodeUL => 0 | CodeUB => 1 | Codel => 2 | Codeb => 3 | CodeUQ => 4 | Codeq => 5 | CodeUI => 6
            | Codei => 7 | CodeUH => 8 | Codeh => 9 end%nat).
  exists (fun k => Nat.ltb k n), (fst (bounds c)), (snd (bounds c)). split; [destruct c; reflexivity|].
  rewrite Forall_forall in F. split; apply Forall_forall; intros x I; specialize (F x I);
    pose proof (holds_in_bounds c x S F); lia.
Qed.
Example arrays_example : make_array (fun k => Nat.ltb k 1) CodeUB [0; 255] /\ small_or_longest CodeUB.
Proof. split; [|left; cbn; lia]. exists 0, (2 ^ 8). repeat constructor; cbn; lia. Qed.
(** array("I", [70000]) is never tried. *)
Theorem arrays_generated_refuted : exists c items, Forall (fun x => holds c x = true) items /\ forall skip, ~ make_array skip c items.
Proof.
  exists CodeUI, [70000]. split; [repeat constructor|]. intros skip (lo & hi & P & _ & F).
  inversion F as [|? ? F1 _]; subst. unfold pick_code in P. cbn in P.
  repeat (destruct (skip _); [|injection P; intros; subst; discriminate + lia]). discriminate.
Qed.

(** C112.  The full claim: array operations have the results, errors and effects of CPython's:

      forall c ops s, wf s -> Forall (same_kind c) ops -> ... fst (run c s ops) = fst (array_run c (contents s) ops) /\ ...

    Proved for six kinds, without extend, and if the values inserted or assigned fit. *)
Theorem array_history_partial : forall c, small_or_longest c -> forall ops s,
  wf s -> Forall (same_kind c) ops -> Forall no_extend ops -> Forall (fitting c) ops ->
  fst (run c s ops) = fst (array_run c (contents s) ops) /\
  contents (snd (run c s ops)) = snd (array_run c (contents s) ops).
Proof.
  intros c S ops s W K N F. destruct (array_run_ok c S ops s) as (A & _ & B); auto.
  eapply Forall_impl; [|exact K]. apply same_kind_wf.
Qed.
Theorem array_new_partial : forall c items, small_or_longest c ->
  new_array c items = match array_new c items with Ok l => Ok (PRaw false l) | Err e => Err e end.
Proof. exact new_ok. Qed.
(** Such an array can always be turned into a real one. *)
Theorem array_in_range_partial : forall c, small_or_longest c -> forall ops s,
  wf s -> Forall (same_kind c) ops -> Forall no_extend ops -> Forall (fitting c) ops ->
  Forall (fun x => holds c x = true) (contents s) ->
  Forall (fun x => holds c x = true) (contents (snd (run c s ops))).
Proof.
  intros c S ops s W K N F H. destruct (array_history_partial c S ops s W K N F) as (_ & ->).
  now apply array_run_holds.
Qed.
Example history_example : run CodeUB (PRaw false [9]) [OAppend 255; OAppend 256; OInsert (-1) 3; OSet 7 1; ODel 0; OReverse; OIter] =
  ([ONone; ORaise OverflowError; ONone; ORaise IndexError; ONone; ONone; OItems [255; 3]], PRaw false [255; 3]).
Proof. reflexivity. Qed.
Example history_meets : Forall (same_kind CodeUB) [OAppend 255; OAppend 256; OInsert (-1) 3; OSet 7 1; ODel 0; OReverse; OIter] /\
  Forall (fitting CodeUB) [OAppend 255; OAppend 256; OInsert (-1) 3; OSet 7 1; ODel 0; OReverse; OIter].
Proof. split; repeat constructor. Qed.

(** append(70000) to an array of four-byte integers raises OverflowError. *)
Theorem array_bounds_refuted : exists c s x, holds c x = true /\ fst (step c s (OAppend x)) <> fst (array_step c (contents s) (OAppend x)).
Proof. exists CodeUI, (PRaw false []), 70000. split; [reflexivity|discriminate]. Qed.
(** insert and item assignment put any value into an array of bytes, which then cannot be
    turned into a real one. *)
Theorem array_insert_refuted : exists c s x, small_or_longest c /\ fst (array_step c (contents s) (OInsert 0 x)) = ORaise OverflowError /\
  step c s (OInsert 0 x) = (ONone, PRaw false [x]).
Proof. exists CodeUB, (PRaw false []), 300. split; [left; cbn; lia|split; reflexivity]. Qed.
Theorem array_setitem_refuted : exists c s x, small_or_longest c /\ fst (array_step c (contents s) (OSet 0 x)) = ORaise OverflowError /\
  step c s (OSet 0 x) = (ONone, PRaw false [x]).
Proof. exists CodeUB, (PRaw false [1]), 300. split; [left; cbn; lia|split; reflexivity]. Qed.
(** After any extend, even by nothing, the array has no length. *)
Theorem array_extend_refuted : forall s items, extended_len (extend s items) = Err TypeError.
Proof. reflexivity. Qed.

Print Assumptions generated_arrays_exist.
Print Assumptions arrays_generated_partial.
Print Assumptions arrays_generated_refuted.
Print Assumptions array_history_partial.
Print Assumptions array_new_partial.
Print Assumptions array_in_range_partial.
Print Assumptions array_bounds_refuted.
Print Assumptions array_insert_refuted.
Print Assumptions array_setitem_refuted.
Print Assumptions array_extend_refuted.
