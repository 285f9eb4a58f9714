From Coq Require Import ZArith List Bool Lia.
From Coq Require Import ZifyBool.
From Verif Require Import Py Range_Spec PySeq_Spec Seq_Model Seq_Spec SeqMut_Proofs SeqCmp_Model Array_Model Array_Spec.
Import ListNotations.
Open Scope Z_scope.

Lemma in_bounds_holds c x : fst (bounds c) <= x < snd (bounds c) -> holds c x = true.
Proof. destruct c; cbn; unfold holds; cbn; lia. Qed.
Lemma holds_in_bounds c x : small_or_longest c -> holds c x = true -> fst (bounds c) <= x < snd (bounds c).
Proof.
  intros S. destruct c; unfold holds; cbn; try lia;
    (destruct S as [S|[S|S]]; [cbn in S; lia|discriminate|discriminate]).
Qed.
Lemma check_int_holds c x : small_or_longest c ->
  check_int x (fst (bounds c)) (snd (bounds c)) = if holds c x then Ok x else Err OverflowError.
Proof.
  intros S. unfold check_int. pose proof (in_bounds_holds c x) as A. pose proof (holds_in_bounds c x S) as B.
  destruct (holds c x); [specialize (B eq_refl)|];
    destruct ((fst (bounds c) <=? x) && (x <? snd (bounds c))) eqn:E; auto; exfalso; try lia.
Qed.
Lemma new_ok c items : small_or_longest c ->
  new_array c items = match array_new c items with Ok l => Ok (PRaw false l) | Err e => Err e end.
Proof.
  intros S. unfold new_array, array_new. rewrite (surjective_pairing (bounds c)).
  assert (E : check_all (fst (bounds c)) (snd (bounds c)) items = if forallb (holds c) items then Ok items else Err OverflowError).
  { induction items as [|x r IH]; cbn [check_all forallb]; auto. rewrite check_int_holds by auto.
    destruct (holds c x); cbn [bind andb]; auto. rewrite IH. destruct (forallb (holds c) r); auto. }
  rewrite E. destruct (forallb (holds c) items); auto.
Qed.

Lemma array_step_ok c s o : small_or_longest c -> wf s -> op_wf o -> no_extend o -> fitting c o ->
  fst (step c s o) = fst (array_step c (contents s) o) /\ wf (snd (step c s o)) /\
  contents (snd (step c s o)) = snd (array_step c (contents s) o).
Proof.
  intros S W Wo N F. pose proof (step_ok s o W Wo) as G.
  destruct o; unfold step, array_step; try exact G; try easy; cbn [fitting] in F.
  - rewrite F. cbn [l_step] in G. destruct (py_setitem (contents s) i x); exact G.
  - now rewrite F.
  - rewrite (surjective_pairing (bounds c)), check_int_holds by auto. destruct (holds c x); auto.
Qed.
Lemma array_run_ok c : small_or_longest c -> forall ops s, wf s -> Forall op_wf ops -> Forall no_extend ops ->
  Forall (fitting c) ops ->
  fst (run c s ops) = fst (array_run c (contents s) ops) /\ wf (snd (run c s ops)) /\
  contents (snd (run c s ops)) = snd (array_run c (contents s) ops).
Proof.
  intros S. induction ops as [|o ops IH]; intros s W F1 F2 F3; cbn [run array_run]; auto.
  inversion F1; inversion F2; inversion F3; subst.
  destruct (array_step_ok c s o) as (E & W' & C); auto.
  destruct (step c s o) as [r s'], (array_step c (contents s) o) as [r' l']. cbn [fst snd] in *. subst.
  destruct (IH s' W') as (E & W2 & C); auto.
  destruct (run c s' ops), (array_run c (contents s') ops). cbn [fst snd] in *. subst. auto.
Qed.

(** * The items stay in range *)
Section All.
  Context {A : Type}.
  Variable P : A -> Prop.
  Lemma firstn_all_P n (l : list A) : Forall P l -> Forall P (firstn n l).
  Proof. intros F. revert n. induction F; intros [|n]; cbn; constructor; auto. Qed.
  Lemma skipn_all_P n (l : list A) : Forall P l -> Forall P (skipn n l).
  Proof. intros F. revert n. induction F; intros [|n]; cbn; auto. Qed.
  Lemma set_all_P (l : list A) i x : Forall P l -> P x -> Forall P (list_set l i x).
  Proof. intros F Px. revert i. induction F; intros [|i]; cbn; constructor; auto. Qed.
  Lemma set_list_P idx : forall (l v : list A), Forall P l -> Forall P v -> Forall P (list_set_all l idx v).
  Proof.
    induction idx as [|i idx IH]; intros l v F V; cbn; auto. destruct v as [|x v]; auto.
    inversion V; subst. apply IH; auto. now apply set_all_P.
  Qed.
  Lemma keep_P f (l : list A) : forall p, Forall P l -> Forall P (keep f p l).
  Proof. induction l as [|x l IH]; intros p F; cbn; auto. inversion F; subst. destruct (f p); auto. Qed.
  Lemma delitem_P (l r : list A) i : Forall P l -> py_delitem l i = Ok r -> Forall P r.
  Proof.
    unfold py_delitem. intros F. destruct (py_pos _ i); cbn; [|easy]. intros E. injection E as <-.
    apply Forall_app. split; [now apply firstn_all_P|now apply skipn_all_P].
  Qed.
  Lemma repeat_P (l : list A) n : Forall P l -> Forall P (py_repeat l n).
  Proof. intros F. unfold py_repeat. induction (Z.to_nat n) as [|k IH]; cbn; auto. apply Forall_app. auto. Qed.
End All.

Lemma array_step_holds c l o : Forall (fun x => holds c x = true) l -> same_kind c o -> no_extend o ->
  Forall (fun x => holds c x = true) (snd (array_step c l o)).
Proof.
  intros F S N. destruct o; cbn [array_step l_step snd lupd] in *; auto.
  - destruct (py_setitem l i x) as [l2|] eqn:E; auto. destruct (holds c x) eqn:Hx; auto. cbn [snd].
    unfold py_setitem in E. destruct (py_pos _ i); [|easy]. cbn in E. injection E as <-. now apply set_all_P.
  - destruct S as (_ & V). destruct (py_setslice l sl (contents v)) as [l2|] eqn:E; auto. cbn.
    unfold py_setslice in E. destruct (py_indices sl _) as [[[a1 b1] s1]|]; [|easy]. cbn [bind] in E.
    destruct (s1 =? 1).
    + injection E as <-. apply Forall_app. split; [now apply firstn_all_P|]. apply Forall_app. split; auto. now apply skipn_all_P.
    + destruct (Nat.eqb _ _); [|easy]. injection E as <-. now apply set_list_P.
  - destruct (py_delitem l i) eqn:E; auto. cbn. now apply (delitem_P _ _ _ i F).
  - destruct (py_delslice l sl) eqn:E; auto. cbn. unfold py_delslice in E.
    destruct (py_indices sl _) as [[[a1 b1] s1]|]; [|easy]. cbn in E. injection E as <-. now apply keep_P.
  - destruct (holds c x) eqn:Hx; auto. cbn. unfold py_insert.
    apply Forall_app. split; [now apply firstn_all_P|]. apply Forall_app. split; auto. now apply skipn_all_P.
  - destruct (holds c x) eqn:Hx; auto. cbn. apply Forall_app. auto.
  - easy.
  - destruct (py_pop l i) as [[x l2]|] eqn:E; auto. cbn. unfold py_pop in E.
    destruct (py_getitem l i); [|easy]. cbn in E. destruct (py_delitem l i) eqn:D; [|easy]. cbn in E. injection E as _ <-.
    now apply (delitem_P _ _ _ i F).
  - apply Forall_rev. exact F.
  - now apply repeat_P.
Qed.
Lemma array_run_holds c : forall ops l, Forall (fun x => holds c x = true) l -> Forall (same_kind c) ops ->
  Forall no_extend ops -> Forall (fun x => holds c x = true) (snd (array_run c l ops)).
Proof.
  induction ops as [|o ops IH]; intros l F S N; cbn [array_run]; auto. inversion S; inversion N; subst.
  pose proof (array_step_holds c l o F H1 H5) as G. destruct (array_step c l o) as [r l']. cbn [snd] in G.
  specialize (IH l' G H2 H6). destruct (array_run c l' ops). exact IH.
Qed.
Lemma same_kind_wf c o : same_kind c o -> op_wf o.
Proof. destruct o; cbn; tauto. Qed.
