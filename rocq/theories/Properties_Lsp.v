(** Property theorems for the editor diagnostics (C133).  Model: [Lsp_Model]; spec: [Lsp_Spec]. *)
From Coq Require Import List Bool Arith.
From Verif Require Import Lsp_Model Lsp_Spec Lsp_Proofs.
Import ListNotations.

(** C133.  For every history in which each publication and each restart is one action: right after a publication
    the editor shows, for every document that is not being edited or closed, exactly one message for each line
    that has one of at least the rank of a warning, namely the worst reported since the document was last opened
    or saved or the analysis restarted (the first of these); and nothing for the others. *)
Theorem C133_shown_messages (h : list action) (u : uri) :
  let shown := client (perform (h ++ [APublish])) u in
  NoDup (map fst shown) /\
  (fst (told u h) = true -> shown = []) /\
  (fst (told u h) = false -> forall line m, In (line, m) shown <-> to_show (snd (told u h)) line m).
Proof. exact (shown_after_publishing h u). Qed.
Print Assumptions C133_shown_messages.
Example C133_shown_messages_witness :
  client (perform [AOpen 1; AReport 1 7 (Msg 2 10); AReport 1 7 (Msg 5 11); AReport 1 7 (Msg 5 12); AReport 1 8 (Msg 1 13); APublish]) 1
    = [(7, Msg 5 11)] /\
  client (perform [AOpen 1; AReport 1 7 (Msg 5 11); APublish; ASave 1; ARestart; APublish]) 1 = [].
Proof. split; reflexivity. Qed.

(** C133.  Problems that are fixed disappear: what was reported before a restart is not shown after the next
    publication, unless it is reported again. *)
Theorem C133_old_messages_go (before_ after : list action) (u : uri) :
  (forall a, In a after -> forall line m, a <> AReport u line m) ->
  client (perform ((before_ ++ ARestart :: after) ++ [APublish])) u = [].
Proof.
  intros H. destruct (shown_after_publishing (before_ ++ ARestart :: after) u) as (_ & E & S). cbv zeta in *.
  set (k := told u (before_ ++ ARestart :: after)) in *.
  assert (R : snd k = []).
  { subst k. clear E S. unfold told. rewrite fold_left_app. cbn [fold_left tell].
    revert H. generalize (fst (fold_left (tell u) before_ (false, []))).
    induction after as [|a after IH]; intros b H; [reflexivity|]. cbn [fold_left].
    assert (T : exists b', tell u (b, []) a = (b', [])).
    { destruct a as [v|v|v|v|v l m| |]; cbn [tell fst]; try (destruct (Nat.eqb v u) eqn:Ev); try (eexists; reflexivity).
      apply Nat.eqb_eq in Ev. subst v. exfalso. apply (H _ (or_introl eq_refl) l m eq_refl). }
    destruct T as [b' ->]. apply (IH b'). intros x I. apply H. now right. }
  destruct (fst k); [now apply E|]. specialize (S eq_refl). rewrite R in S.
  destruct (client _ u) as [|[line m] l]; [reflexivity|]. exfalso.
  destruct (proj1 (S line m) (or_introl eq_refl)) as (_ & x & y & X & _). destruct x; discriminate X.
Qed.
Print Assumptions C133_old_messages_go.
Example C133_old_messages_go_witness :
  client (perform [AReport 1 7 (Msg 5 11); APublish]) 1 <> [] /\
  client (perform [AReport 1 7 (Msg 5 11); APublish; ARestart; AReport 2 3 (Msg 5 11); APublish]) 1 = [].
Proof. split; [discriminate|reflexivity]. Qed.

(** C133, partial.  The full property: while a document is being edited (since its last change or closing it
    has not been saved or opened) the editor shows no message in it, in any order of the steps of the two
    threads.  Missing: orders in which the editor speaks about the document while the analysis thread is between
    the reading of its entries and the treatment of the entry of this document; the next theorem shows that
    they break it. *)
Theorem C133_nothing_while_editing_partial (u : uri) (h : list event) :
  undisturbed u initial h -> being_edited u (rev h) = true -> client (run initial h) u = [].
Proof. intros U E. exact (proj1 (proj2 (edited_quiet u h U E))). Qed.
Print Assumptions C133_nothing_while_editing_partial.
Example C133_nothing_while_editing_partial_witness :
  let h := [Open 1; Open 2; Report 1 7 (Msg 5 11); Change 1; BeginPublish; Next; Change 1; Next; Report 1 7 (Msg 5 11);
            BeginRestart; Next; Next; Report 1 7 (Msg 5 11); BeginPublish; Next; Next] in
  undisturbed 1 initial h /\ being_edited 1 (rev h) = true /\ client (run initial (firstn 6 h)) 1 = [].
Proof.
  cbn. split; [|auto].
  repeat (split; [intros E; try discriminate E; intros t; cbn; intros I;
    repeat (destruct I as [<-|I]); try reflexivity; try contradiction|]); exact I.
Qed.

(** C133, violated.  A change that comes while the analysis thread publishes: the old messages are shown in the
    edited document, and the next publications do not take them away. *)
Theorem C133_stale_messages_while_editing_refuted : exists (h : list event) (u : uri),
  being_edited u (rev h) = true /\ client (run initial h) u <> [] /\
  client (run initial (h ++ [BeginPublish; Next; BeginRestart; Next; BeginPublish; Next])) u <> [].
Proof.
  exists [Open 1; Report 1 7 (Msg 5 11); BeginPublish; Change 1; Next], 1. repeat split; discriminate.
Qed.
Print Assumptions C133_stale_messages_while_editing_refuted.
(** C133, violated.  The same when the thread restarts, or publishes nothing for the document: the note that the
    document is being edited is lost, and messages about the old text are shown later. *)
Theorem C133_editing_forgotten_refuted : exists (h1 h2 : list event) (u : uri),
  being_edited u (rev h1) = true /\ jobs (run initial h1) = [] /\ client (run initial h1) u = [] /\
  being_edited u (rev h2) = true /\ jobs (run initial h2) = [] /\ client (run initial h2) u = [] /\
  client (run initial (h1 ++ [Report u 7 (Msg 5 11); BeginPublish; Next])) u <> [] /\
  client (run initial (h2 ++ [Report u 7 (Msg 5 11); BeginPublish; Next])) u <> [].
Proof.
  exists [Open 1; BeginRestart; Change 1; Next], [Open 1; BeginPublish; Change 1; Next], 1. repeat split; discriminate.
Qed.
Print Assumptions C133_editing_forgotten_refuted.

(** C133.  A message without a column marks the text of its line: outside the marked columns there is only white
    space, and neither end of the mark is white space. *)
Theorem C133_marked_text (l : list bool) : let (c, e) := column_range 0 (Some l) in
  c <= e <= length l /\ (forall i, i < c \/ e <= i < length l -> nth i l true = true) /\
  (c < e -> nth c l true = false /\ nth (e - 1) l true = false).
Proof. exact (range_of_text l). Qed.
Print Assumptions C133_marked_text.
Example C133_marked_text_witness : column_range 0 (Some [true; true; false; true; false; true]) = (2, 5).
Proof. reflexivity. Qed.
